(** * Complex conjugation commutes with every operation of the model (exact arithmetic) *)
From Coq Require Import ZArith Reals List Bool Lra Lia Psatz.
From Coquelicot Require Import Coquelicot.
From Flocq Require Import Core.Raux.
From Verif Require Import Num NumR Outcome Spec Eval_R Model_Tables Model_Zeta Model_LiC Model_Li Proof_Int Proof_LiInt Cplx.
Import ListNotations.
Local Open Scope R_scope.

Section J.
Variable e : R.
Notation N := (NumR e).
(** conjugate: the imaginary part changes sign *)
Definition cj (z : cpx N) : cpx N := (fst z, opp N (snd z)).
(** not on the real axis *)
Definition nonreal (z : cpx N) : Prop := snd z <> Some 0.
Lemma cj_ofC z : cj (ofC e z) = ofC e (Cconj z). Proof. reflexivity. Qed.
Ltac opt := intros; unfold cj, cadd, cadd_rc, cadd_cr, csub, csub_rc, csub_cr, cmul, cmul_rc, cmul_cr, copp, cnorm, cdiv, cdiv_rc, cdiv_cr, odiv in *;
  repeat match goal with z : cpx _ |- _ => destruct z as [[?|] [?|]] | r : car _ |- _ => destruct r as [?|] | r : option R |- _ => destruct r as [?|] end;
  cbn [fst snd NumR add sub mul div opp lift1 lift2 odiv]; try reflexivity; try (f_equal; f_equal; ring).
Lemma fst_cj z : fst (cj z) = fst z. Proof. reflexivity. Qed.
Lemma snd_cj z : snd (cj z) = opp N (snd z). Proof. reflexivity. Qed.
Lemma cj_opp z : copp N (cj z) = cj (copp N z). Proof. opt. Qed.
Lemma cj_add z w : cadd N (cj z) (cj w) = cj (cadd N z w). Proof. opt. Qed.
Lemma cj_add_rc r z : cadd_rc N r (cj z) = cj (cadd_rc N r z). Proof. opt. Qed.
Lemma cj_add_cr r z : cadd_cr N (cj z) r = cj (cadd_cr N z r). Proof. opt. Qed.
Lemma cj_sub z w : csub N (cj z) (cj w) = cj (csub N z w). Proof. opt. Qed.
Lemma cj_sub_rc r z : csub_rc N r (cj z) = cj (csub_rc N r z). Proof. opt. Qed.
Lemma cj_sub_cr r z : csub_cr N (cj z) r = cj (csub_cr N z r). Proof. opt. Qed.
Lemma cj_mul z w : cmul N (cj z) (cj w) = cj (cmul N z w). Proof. opt. Qed.
Lemma cj_mul_rc r z : cmul_rc N r (cj z) = cj (cmul_rc N r z). Proof. opt. Qed.
Lemma cj_mul_cr r z : cmul_cr N (cj z) r = cj (cmul_cr N z r). Proof. opt. Qed.
Lemma cj_norm z : cnorm N (cj z) = cnorm N z. Proof. opt; f_equal; ring. Qed.
Lemma cj_div_cr z r : cdiv_cr N (cj z) r = cj (cdiv_cr N z r).
Proof. opt. all: destruct (Req_EM_T _ _); cbn [lift1]; try reflexivity. all: try (f_equal; f_equal; field; assumption). Qed.
Lemma cj_div z w : cdiv N (cj z) (cj w) = cj (cdiv N z w).
Proof.
  unfold cdiv. rewrite cj_norm. destruct (cnorm N w) as [d|]; opt.
  all: destruct (Req_EM_T _ _); cbn [lift1]; try reflexivity. all: f_equal; f_equal; field; assumption.
Qed.
Lemma cj_div_rc r w : cdiv_rc N r (cj w) = cj (cdiv_rc N r w).
Proof.
  unfold cdiv_rc. rewrite cj_norm. destruct (cnorm N w) as [d|]; opt.
  all: destruct (Req_EM_T _ _); cbn [lift1]; try reflexivity. all: f_equal; f_equal; field; assumption.
Qed.
Lemma cj_abs z : cabs N (cj z) = cabs N z.
Proof. destruct z as [[x|] [y|]]; try reflexivity. cbn. f_equal. f_equal. ring. Qed.
Lemma cj_arg z : nonreal z -> carg N (cj z) = opp N (carg N z).
Proof.
  destruct z as [[x|] [y|]]; try reflexivity. intros H. cbn. f_equal. apply atan2_opp. intros E. apply H. cbn. rewrite E. reflexivity.
Qed.
Lemma cj_log z : nonreal z -> clog N (cj z) = cj (clog N z).
Proof. intros H. unfold clog. rewrite cj_abs, cj_arg by exact H. reflexivity. Qed.
Lemma cj_finite z : Model_Li.is_finite N (cj z) = Model_Li.is_finite N z.
Proof. destruct z as [[x|] [y|]]; reflexivity. Qed.
Lemma Reqb_sym_opp a b : Reqb (- a) (- b) = Reqb a b.
Proof. unfold Reqb. destruct (Req_EM_T a b), (Req_EM_T (- a) (- b)); try reflexivity; exfalso; lra. Qed.
Lemma cj_eqb z w : ceqb N (cj z) (cj w) = ceqb N z w.
Proof.
  destruct z as [[x|] [y|]], w as [[a|] [b|]]; try reflexivity. all: unfold ceqb, cj; cbn [fst snd NumR eqb opp lift1 ocmp]; rewrite ?Reqb_sym_opp; reflexivity.
Qed.
Lemma cj_real (a b : N) : (a, opp N b) = cj (a, b). Proof. reflexivity. Qed.
Lemma cj_zero (a : N) : (a, lit N 0 0) = cj (a, lit N 0 0).
Proof. unfold cj. rewrite lit_int. cbn. do 2 f_equal. ring. Qed.

Lemma nr_cj z : nonreal z -> nonreal (cj z).
Proof. destruct z as [x [y|]]; unfold nonreal; cbn; intros H E; [|discriminate]. injection E. intros. apply H. f_equal. lra. Qed.
Lemma nr_opp z : nonreal z -> nonreal (copp N z).
Proof. destruct z as [x [y|]]; unfold nonreal; cbn; intros H E; [|discriminate]. injection E. intros. apply H. f_equal. lra. Qed.
Lemma nr_sub_rc r z : nonreal z -> nonreal (csub_rc N r z).
Proof. apply (nr_opp z). Qed.
Lemma nr_add_rc r z : nonreal z -> nonreal (cadd_rc N r z).
Proof. exact (fun H => H). Qed.
Lemma nr_div_rc r z : r <> 0 -> nonreal z -> nonreal (cdiv_rc N (Some r) z).
Proof.
  intros R. unfold nonreal, cdiv_rc. destruct z as [x [y|]]; cbn; intros H E; [|discriminate E].
  match type of E with context[match ?a with Some _ => _ | None => _ end] => destruct a as [d|] end; [|discriminate]. destruct (Req_EM_T d 0) as [D|D]; [discriminate|]. cbn in E. injection E. intros Q.
  apply H. f_equal. assert (r * y = 0) by (apply (f_equal (fun t => - t * d)) in Q; replace (- - (r * y / d) * d) with (r * y) in Q by (field; exact D); lra).
  apply Rmult_integral in H0. destruct H0; [contradiction|assumption].
Qed.
Lemma nr_log z : nonreal z -> nonreal (clog N z).
Proof.
  destruct z as [[x|] [y|]]; unfold nonreal; cbn; intros H E; try discriminate. injection E. intros Q. apply H. f_equal. revert Q. apply atan2_0_iff.
Qed.
Lemma nr_eqb z : nonreal z -> eqb N (snd z) (lit N 0 0) = false.
Proof.
  destruct z as [x [y|]]; intros H; [|reflexivity]. rewrite lit_int. cbn. unfold Reqb. destruct (Req_EM_T y 0) as [->|]; [|reflexivity]. elim H. reflexivity.
Qed.
Lemma nr_eqb' z : nonreal z -> eqb N (opp N (snd z)) (lit N 0 0) = false.
Proof. intros H. apply (nr_eqb (cj z)). apply nr_cj. exact H. Qed.
Lemma cj_log1p z : nonreal z -> clog1p N (cj z) = cj (clog1p N z).
Proof.
  intros H. unfold clog1p. cbv zeta. rewrite !cj_add_rc. set (u := cadd_rc N (lit N 1 0) z). assert (U : nonreal u) by (apply nr_add_rc; exact H).
  rewrite !fst_cj, !snd_cj, (nr_eqb u U), (nr_eqb' u U), andb_false_r, cj_sub_cr, cj_div, cj_log, cj_mul by exact U.
  destruct (leb N _ _); reflexivity.
Qed.
Lemma cj_pos_log z : nonreal z -> pos_log N (cj z) = cj (pos_log N z).
Proof.
  intros H. unfold pos_log. rewrite !snd_cj, (nr_eqb z H), (nr_eqb' z H). cbn [andb]. apply cj_log. exact H.
Qed.
Lemma cj_Li_clog z : nonreal z -> Li_clog N (cj z) = cj (Li_clog N z).
Proof.
  intros H. unfold Li_clog. rewrite !snd_cj, (nr_eqb z H), (nr_eqb' z H). cbn [andb]. exact (cj_log z H).
Qed.
Lemma nr_Li_clog z : nonreal z -> nonreal (Li_clog N z).
Proof. intros H. unfold Li_clog. rewrite (nr_eqb z H). cbn [andb]. exact (nr_log z H). Qed.
Lemma cj_sqr (p : N) : mul N (opp N p) (opp N p) = mul N p p.
Proof. destruct p as [p|]; [|reflexivity]. cbn. f_equal. ring. Qed.
(** the flip of the argument by pi: log(-z) from log z *)
Lemma cj_flip (l p q : N) : p <> Some 0 ->
  (l, if ltb N (lit N 0 0) (opp N p) then sub N (opp N p) q else add N (opp N p) q) = cj (l, if ltb N (lit N 0 0) p then sub N p q else add N p q).
Proof.
  intros H. unfold cj. cbn [fst snd]. f_equal. destruct p as [p|]; [|destruct q; reflexivity]. rewrite lit_int. cbn. unfold Rltb.
  destruct (Rlt_dec 0 (- p)), (Rlt_dec 0 p); destruct q as [q|]; cbn; try reflexivity; try (f_equal; lra); exfalso; apply H; f_equal; lra.
Qed.
Lemma cj_horner k z c : chorner N k (cj z) c = cj (chorner N k z c).
Proof.
  unfold chorner. destruct (rev c) as [|a [|b l]]; [reflexivity..|]. cbv zeta. rewrite cj_norm, fst_cj, snd_cj.
  set (ab := chorner_loop _ _ _ _ _ _). unfold cj. cbn [fst snd]. f_equal. destruct (snd z), (fst ab); cbn; try reflexivity. f_equal. ring.
Qed.
Lemma nr_carg z : nonreal z -> carg N z <> Some 0.
Proof. apply (nr_log z). Qed.
End J.
#[export] Hint Resolve nr_cj nr_opp nr_sub_rc nr_add_rc nr_log nr_Li_clog nr_carg : cj.
Section L.
Variable e : R.
Notation N := (NumR e).
Notation cj := (cj e).
Implicit Types (a b c d : cpx N) (r : N).
Lemma l_opp  a b : a = cj b -> copp N a = cj (copp N b). Proof. intros ->. apply cj_opp. Qed.
Lemma l_add_rc r a b : a = cj b -> cadd_rc N r a = cj (cadd_rc N r b). Proof. intros ->. apply cj_add_rc. Qed.
Lemma l_add_cr r a b : a = cj b -> cadd_cr N a r = cj (cadd_cr N b r). Proof. intros ->. apply cj_add_cr. Qed.
Lemma l_sub_rc r a b : a = cj b -> csub_rc N r a = cj (csub_rc N r b). Proof. intros ->. apply cj_sub_rc. Qed.
Lemma l_sub_cr r a b : a = cj b -> csub_cr N a r = cj (csub_cr N b r). Proof. intros ->. apply cj_sub_cr. Qed.
Lemma l_mul_rc r a b : a = cj b -> cmul_rc N r a = cj (cmul_rc N r b). Proof. intros ->. apply cj_mul_rc. Qed.
Lemma l_mul_cr r a b : a = cj b -> cmul_cr N a r = cj (cmul_cr N b r). Proof. intros ->. apply cj_mul_cr. Qed.
Lemma l_div_rc r a b : a = cj b -> cdiv_rc N r a = cj (cdiv_rc N r b). Proof. intros ->. apply cj_div_rc. Qed.
Lemma l_div_cr r a b : a = cj b -> cdiv_cr N a r = cj (cdiv_cr N b r). Proof. intros ->. apply cj_div_cr. Qed.
Lemma l_add a b c d : a = cj b -> c = cj d -> cadd N a c = cj (cadd N b d). Proof. intros -> ->. apply cj_add. Qed.
Lemma l_sub a b c d : a = cj b -> c = cj d -> csub N a c = cj (csub N b d). Proof. intros -> ->. apply cj_sub. Qed.
Lemma l_mul a b c d : a = cj b -> c = cj d -> cmul N a c = cj (cmul N b d). Proof. intros -> ->. apply cj_mul. Qed.
Lemma l_div a b c d : a = cj b -> c = cj d -> cdiv N a c = cj (cdiv N b d). Proof. intros -> ->. apply cj_div. Qed.
Lemma l_horner k a b l : a = cj b -> chorner N k a l = cj (chorner N k b l). Proof. intros ->. apply cj_horner. Qed.
End L.
(** syntax directed *)
Ltac cjt := lazymatch goal with
  | |- cj _ ?a = cj _ ?a => exact (eq_refl _)
  | |- copp _ _ = _ => apply l_opp; cjt
  | |- cadd _ _ _ = _ => apply l_add; cjt
  | |- cadd_rc _ _ _ = _ => apply l_add_rc; cjt
  | |- cadd_cr _ _ _ = _ => apply l_add_cr; cjt
  | |- csub _ _ _ = _ => apply l_sub; cjt
  | |- csub_rc _ _ _ = _ => apply l_sub_rc; cjt
  | |- csub_cr _ _ _ = _ => apply l_sub_cr; cjt
  | |- cmul _ _ _ = _ => apply l_mul; cjt
  | |- cmul_rc _ _ _ = _ => apply l_mul_rc; cjt
  | |- cmul_cr _ _ _ = _ => apply l_mul_cr; cjt
  | |- cdiv _ _ _ = _ => apply l_div; cjt
  | |- cdiv_rc _ _ _ = _ => apply l_div_rc; cjt
  | |- cdiv_cr _ _ _ = _ => apply l_div_cr; cjt
  | |- chorner _ _ _ _ = _ => apply l_horner; cjt
  | |- (lit _ 0 0, lit _ 0 0) = _ => apply cj_zero
  | |- _ => idtac end.
Section K.
Variable e : R.
Notation N := (NumR e).
Notation cj := (cj e).
Notation nonreal := (nonreal e).
Lemma conj2 z : nonreal z ->
  cLi2_f N (cj z) = cj (cLi2_f N z) /\ cLi2_d N (cj z) = cj (cLi2_d N z) /\ cLi2_l N (cj z) = cj (cLi2_l N z) /\ cLi2_q N (cj z) = cj (cLi2_q N z).
Proof.
  intros H.
  assert (D : nonreal (cdiv_rc N (lit N (-1) 0) z)) by (rewrite lit_int; apply nr_div_rc; [lra|exact H]).
  repeat apply conj; unfold cLi2_f, cLi2_d, cLi2_l, cLi2_q; cbv zeta; rewrite !fst_cj, !snd_cj, (nr_eqb e z H), (nr_eqb' e z H), cj_norm.
  all: rewrite !cj_div_rc, !cj_opp, !(cj_log e), !(cj_log1p e) by (auto with cj).
  all: destruct (ltb N (cnorm N z) (eps N)); [cjt|].
  all: repeat match goal with |- context[if ?b then _ else _] => destruct b end; cbv beta iota.
  all: cjt.
Qed.
Lemma conj3_d z : nonreal z -> cLi3_d N (cj z) = cj (cLi3_d N z).
Proof.
  intros H.
  assert (D : nonreal (cdiv_rc N (lit N (-1) 0) z)) by (rewrite lit_int; apply nr_div_rc; [lra|exact H]).
  assert (PZ : carg N z <> Some 0) by (auto with cj).
  assert (PU : nonreal (copp N (nlog N (cabs N z), carg N z))) by (apply (nr_opp e (nlog N (cabs N z), carg N z)); exact PZ).
  unfold cLi3_d; rewrite cj_abs, (cj_arg e z H), !cj_div_rc, !(cj_opp e z), fst_cj, snd_cj. cbv zeta. rewrite (nr_eqb e z H), (nr_eqb' e z H), cj_sqr.
  destruct (ltb N (add N _ _) (lit N 1 0)); [|destruct (leb N (cabs N z) (lit N 1 0)); cbv beta iota].
  1: rewrite ?(cj_real e _ (carg N z)), ?(cj_opp e (_, carg N z)), ?(cj_pos_log e _ PU).
  2-3: rewrite ?(cj_flip e _ _ _ PZ), ?(cj_log1p e) by (auto with cj).
  all: cjt.
Qed.
Lemma conj3_l z : nonreal z -> cLi3_l N (cj z) = cj (cLi3_l N z).
Proof.
  intros H.
  assert (D : nonreal (cdiv_rc N (lit N (-1) 0) z)) by (rewrite lit_int; apply nr_div_rc; [lra|exact H]).
  assert (PZ : carg N z <> Some 0) by (auto with cj).
  assert (PU : nonreal (copp N (nlog N (cabs N z), carg N z))) by (apply (nr_opp e (nlog N (cabs N z), carg N z)); exact PZ).
  unfold cLi3_l; rewrite cj_abs, (cj_arg e z H), !cj_div_rc, !(cj_opp e z), fst_cj, snd_cj. cbv zeta. rewrite (nr_eqb e z H), (nr_eqb' e z H), cj_sqr.
  destruct (ltb N (add N _ _) (lit N 1 0)); [|destruct (leb N (cabs N z) (lit N 1 0)); cbv beta iota].
  1: rewrite ?(cj_real e _ (carg N z)), ?(cj_opp e (_, carg N z)), ?(cj_pos_log e _ PU).
  2-3: rewrite ?(cj_flip e _ _ _ PZ), ?(cj_log1p e) by (auto with cj).
  all: cjt.
Qed.
Lemma conj3_q z : nonreal z -> cLi3_q N (cj z) = cj (cLi3_q N z).
Proof.
  intros H.
  assert (D : nonreal (cdiv_rc N (lit N (-1) 0) z)) by (rewrite lit_int; apply nr_div_rc; [lra|exact H]).
  assert (PZ : carg N z <> Some 0) by (auto with cj).
  assert (PU : nonreal (copp N (nlog N (cabs N z), carg N z))) by (apply (nr_opp e (nlog N (cabs N z), carg N z)); exact PZ).
  unfold cLi3_q; rewrite cj_abs, (cj_arg e z H), !cj_div_rc, !(cj_opp e z), fst_cj, snd_cj. cbv zeta. rewrite (nr_eqb e z H), (nr_eqb' e z H), cj_sqr.
  destruct (ltb N (add N _ _) (lit N 1 0)); [|destruct (leb N (cabs N z) (lit N 1 0)); cbv beta iota].
  1: rewrite ?(cj_real e _ (carg N z)), ?(cj_opp e (_, carg N z)), ?(cj_pos_log e _ PU).
  2-3: rewrite ?(cj_flip e _ _ _ PZ), ?(cj_log1p e) by (auto with cj).
  all: cjt.
Qed.
Lemma conj4_d z : nonreal z -> cLi4_d N (cj z) = cj (cLi4_d N z).
Proof.
  intros H.
  assert (D : nonreal (cdiv_rc N (lit N (-1) 0) z)) by (rewrite lit_int; apply nr_div_rc; [lra|exact H]).
  assert (PZ : carg N z <> Some 0) by (auto with cj).
  assert (PU : nonreal (copp N (nlog N (cabs N z), carg N z))) by (apply (nr_opp e (nlog N (cabs N z), carg N z)); exact PZ).
  unfold cLi4_d; rewrite cj_abs, (cj_arg e z H), !cj_div_rc, !(cj_opp e z), fst_cj, snd_cj. cbv zeta. rewrite (nr_eqb e z H), (nr_eqb' e z H), cj_sqr.
  destruct (ltb N (add N _ _) (lit N 1 0)); [|destruct (leb N (cabs N z) (lit N 1 0)); cbv beta iota].
  1: rewrite ?(cj_real e _ (carg N z)), ?(cj_opp e (_, carg N z)), ?(cj_pos_log e _ PU).
  2-3: rewrite ?(cj_flip e _ _ _ PZ), ?(cj_log1p e) by (auto with cj).
  all: cjt.
Qed.
Lemma conj4_l z : nonreal z -> cLi4_l N (cj z) = cj (cLi4_l N z).
Proof.
  intros H.
  assert (D : nonreal (cdiv_rc N (lit N (-1) 0) z)) by (rewrite lit_int; apply nr_div_rc; [lra|exact H]).
  assert (PZ : carg N z <> Some 0) by (auto with cj).
  assert (PU : nonreal (copp N (nlog N (cabs N z), carg N z))) by (apply (nr_opp e (nlog N (cabs N z), carg N z)); exact PZ).
  unfold cLi4_l; rewrite cj_abs, (cj_arg e z H), !cj_div_rc, !(cj_opp e z), fst_cj, snd_cj. cbv zeta. rewrite (nr_eqb e z H), (nr_eqb' e z H), cj_sqr.
  destruct (ltb N (add N _ _) (lit N 1 0)); [|destruct (leb N (cabs N z) (lit N 1 0)); cbv beta iota].
  1: rewrite ?(cj_real e _ (carg N z)), ?(cj_opp e (_, carg N z)), ?(cj_pos_log e _ PU).
  2-3: rewrite ?(cj_flip e _ _ _ PZ), ?(cj_log1p e) by (auto with cj).
  all: cjt.
Qed.
Lemma conj4_q z : nonreal z -> cLi4_q N (cj z) = cj (cLi4_q N z).
Proof.
  intros H.
  assert (D : nonreal (cdiv_rc N (lit N (-1) 0) z)) by (rewrite lit_int; apply nr_div_rc; [lra|exact H]).
  assert (PZ : carg N z <> Some 0) by (auto with cj).
  assert (PU : nonreal (copp N (nlog N (cabs N z), carg N z))) by (apply (nr_opp e (nlog N (cabs N z), carg N z)); exact PZ).
  unfold cLi4_q; rewrite cj_abs, (cj_arg e z H), !cj_div_rc, !(cj_opp e z), fst_cj, snd_cj. cbv zeta. rewrite (nr_eqb e z H), (nr_eqb' e z H), cj_sqr.
  destruct (ltb N (add N _ _) (lit N 1 0)); [|destruct (leb N (cabs N z) (lit N 1 0)); cbv beta iota].
  1: rewrite ?(cj_real e _ (carg N z)), ?(cj_opp e (_, carg N z)), ?(cj_pos_log e _ PU).
  2-3: rewrite ?(cj_flip e _ _ _ PZ), ?(cj_log1p e) by (auto with cj).
  all: cjt.
Qed.
Lemma conj5_d z : nonreal z -> cLi5_d N (cj z) = cj (cLi5_d N z).
Proof.
  intros H.
  assert (D : nonreal (cdiv_rc N (lit N (-1) 0) z)) by (rewrite lit_int; apply nr_div_rc; [lra|exact H]).
  assert (PZ : carg N z <> Some 0) by (auto with cj).
  assert (PU : nonreal (copp N (nlog N (cabs N z), carg N z))) by (apply (nr_opp e (nlog N (cabs N z), carg N z)); exact PZ).
  unfold cLi5_d; rewrite cj_abs, (cj_arg e z H), !cj_div_rc, !(cj_opp e z), fst_cj, snd_cj. cbv zeta. rewrite (nr_eqb e z H), (nr_eqb' e z H), cj_sqr.
  destruct (ltb N (add N _ _) (lit N 1 0)); [|destruct (leb N (cabs N z) (lit N 1 0)); cbv beta iota].
  1: rewrite ?(cj_real e _ (carg N z)), ?(cj_opp e (_, carg N z)), ?(cj_pos_log e _ PU).
  2-3: rewrite ?(cj_flip e _ _ _ PZ), ?(cj_log1p e) by (auto with cj).
  all: cjt.
Qed.
Lemma conj5_l z : nonreal z -> cLi5_l N (cj z) = cj (cLi5_l N z).
Proof.
  intros H.
  assert (D : nonreal (cdiv_rc N (lit N (-1) 0) z)) by (rewrite lit_int; apply nr_div_rc; [lra|exact H]).
  assert (PZ : carg N z <> Some 0) by (auto with cj).
  assert (PU : nonreal (copp N (nlog N (cabs N z), carg N z))) by (apply (nr_opp e (nlog N (cabs N z), carg N z)); exact PZ).
  unfold cLi5_l; rewrite cj_abs, (cj_arg e z H), !cj_div_rc, !(cj_opp e z), fst_cj, snd_cj. cbv zeta. rewrite (nr_eqb e z H), (nr_eqb' e z H), cj_sqr.
  destruct (ltb N (add N _ _) (lit N 1 0)); [|destruct (leb N (cabs N z) (lit N 1 0)); cbv beta iota].
  1: rewrite ?(cj_real e _ (carg N z)), ?(cj_opp e (_, carg N z)), ?(cj_pos_log e _ PU).
  2-3: rewrite ?(cj_flip e _ _ _ PZ), ?(cj_log1p e) by (auto with cj).
  all: cjt.
Qed.
Lemma conj5_q z : nonreal z -> cLi5_q N (cj z) = cj (cLi5_q N z).
Proof.
  intros H.
  assert (D : nonreal (cdiv_rc N (lit N (-1) 0) z)) by (rewrite lit_int; apply nr_div_rc; [lra|exact H]).
  assert (PZ : carg N z <> Some 0) by (auto with cj).
  assert (PU : nonreal (copp N (nlog N (cabs N z), carg N z))) by (apply (nr_opp e (nlog N (cabs N z), carg N z)); exact PZ).
  unfold cLi5_q; rewrite cj_abs, (cj_arg e z H), !cj_div_rc, !(cj_opp e z), fst_cj, snd_cj. cbv zeta. rewrite (nr_eqb e z H), (nr_eqb' e z H), cj_sqr.
  destruct (ltb N (add N _ _) (lit N 1 0)); [|destruct (leb N (cabs N z) (lit N 1 0)); cbv beta iota].
  1: rewrite ?(cj_real e _ (carg N z)), ?(cj_opp e (_, carg N z)), ?(cj_pos_log e _ PU).
  2-3: rewrite ?(cj_flip e _ _ _ PZ), ?(cj_log1p e) by (auto with cj).
  all: cjt.
Qed.
Lemma conj6_d z : nonreal z -> cLi6_d N (cj z) = cj (cLi6_d N z).
Proof.
  intros H.
  assert (D : nonreal (cdiv_rc N (lit N (-1) 0) z)) by (rewrite lit_int; apply nr_div_rc; [lra|exact H]).
  assert (PZ : carg N z <> Some 0) by (auto with cj).
  assert (PU : nonreal (copp N (nlog N (cabs N z), carg N z))) by (apply (nr_opp e (nlog N (cabs N z), carg N z)); exact PZ).
  unfold cLi6_d; rewrite cj_abs, (cj_arg e z H), !cj_div_rc, !(cj_opp e z), fst_cj, snd_cj. cbv zeta. rewrite (nr_eqb e z H), (nr_eqb' e z H), cj_sqr.
  destruct (ltb N (add N _ _) (lit N 1 0)); [|destruct (leb N (cabs N z) (lit N 1 0)); cbv beta iota].
  1: rewrite ?(cj_real e _ (carg N z)), ?(cj_opp e (_, carg N z)), ?(cj_pos_log e _ PU).
  2-3: rewrite ?(cj_flip e _ _ _ PZ), ?(cj_log1p e) by (auto with cj).
  all: cjt.
Qed.
Lemma conj6_l z : nonreal z -> cLi6_l N (cj z) = cj (cLi6_l N z).
Proof.
  intros H.
  assert (D : nonreal (cdiv_rc N (lit N (-1) 0) z)) by (rewrite lit_int; apply nr_div_rc; [lra|exact H]).
  assert (PZ : carg N z <> Some 0) by (auto with cj).
  assert (PU : nonreal (copp N (nlog N (cabs N z), carg N z))) by (apply (nr_opp e (nlog N (cabs N z), carg N z)); exact PZ).
  unfold cLi6_l; rewrite cj_abs, (cj_arg e z H), !cj_div_rc, !(cj_opp e z), fst_cj, snd_cj. cbv zeta. rewrite (nr_eqb e z H), (nr_eqb' e z H), cj_sqr.
  destruct (ltb N (add N _ _) (lit N 1 0)); [|destruct (leb N (cabs N z) (lit N 1 0)); cbv beta iota].
  1: rewrite ?(cj_real e _ (carg N z)), ?(cj_opp e (_, carg N z)), ?(cj_pos_log e _ PU).
  2-3: rewrite ?(cj_flip e _ _ _ PZ), ?(cj_log1p e) by (auto with cj).
  all: cjt.
Qed.
Lemma conj6_q z : nonreal z -> cLi6_q N (cj z) = cj (cLi6_q N z).
Proof.
  intros H.
  assert (D : nonreal (cdiv_rc N (lit N (-1) 0) z)) by (rewrite lit_int; apply nr_div_rc; [lra|exact H]).
  assert (PZ : carg N z <> Some 0) by (auto with cj).
  assert (PU : nonreal (copp N (nlog N (cabs N z), carg N z))) by (apply (nr_opp e (nlog N (cabs N z), carg N z)); exact PZ).
  unfold cLi6_q; rewrite cj_abs, (cj_arg e z H), !cj_div_rc, !(cj_opp e z), fst_cj, snd_cj. cbv zeta. rewrite (nr_eqb e z H), (nr_eqb' e z H), cj_sqr.
  destruct (ltb N (add N _ _) (lit N 1 0)); [|destruct (leb N (cabs N z) (lit N 1 0)); cbv beta iota].
  1: rewrite ?(cj_real e _ (carg N z)), ?(cj_opp e (_, carg N z)), ?(cj_pos_log e _ PU).
  2-3: rewrite ?(cj_flip e _ _ _ PZ), ?(cj_log1p e) by (auto with cj).
  all: cjt.
Qed.
End K.
