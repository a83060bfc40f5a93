(** * C27, C45: the complex polylogarithms Li2 .. Li6 off the real axis, exact arithmetic

    [CLi n z] (CLi.v) is the principal branch, defined without reference to the
    code: CLi 0 z = z/(1-z), CLi 1 z = -Log(1-z), and CLi (n+1) z is the integral
    of CLi n (t z)/t over t in [0,1].  The theorems [C45_spec_*] below tie it to the
    power series inside the unit disc, to the real polylogarithm [ReLi] of the
    other properties, and to the derivative z d/dz.

    The code runs over exact real arithmetic ([RD], ... : NumR.v) with the decimal
    literals of the source; [ofC] embeds a complex number as a pair of such numbers.
    So the bounds are truncation errors of the series plus errors of the literals. *)
From Coq Require Import ZArith Reals List Bool Lra Lia Psatz.
From Coquelicot Require Import Coquelicot.
From Verif Require Import Num NumR Spec Cplx Clog_series Ccalc Polylog CLi CLi_disc CLi_inv Cpoly CLi_T CLi_region CLi_unity Rest Model_LiC CLi_code CLi_eval CLi_dev CLi_rest CLi_acc CLi_inst CLi2_acc CLi2_inst.
Import ListNotations.
Local Open Scope R_scope.

(** ** the specification is the polylogarithm *)
Theorem C45_spec_series n z : (1 <= n)%nat -> Cmod z < 1 -> Csums (fun k => Cdiv (Cpow z (S k)) (RtoC (INR (S k) ^ n))) (CLi n z).
Proof. apply disc_series. Qed.
Theorem C45_spec_real n x : (1 <= n)%nat -> x < 1 -> CLi n (RtoC x) = RtoC (ReLi n x).
Proof. intros Hn Hx. apply CLi_real; assumption. Qed.
(** on the plane cut along [1, infinity): d/dt Li_{n+1}(t z) = Li_n(t z)/t *)
Theorem C45_spec_derivative n z t : 0 < t -> fst (Cmult (RtoC t) z) < 1 \/ snd (Cmult (RtoC t) z) <> 0 ->
  cder (fun s => CLi (S n) (Cmult (RtoC s) z)) t (Cdiv (CLi n (Cmult (RtoC t) z)) (RtoC t)).
Proof. apply CLi_der. Qed.
Theorem C45_spec_log z : CLi 1 z = Copp (Clog (Cminus (RtoC 1) z)).
Proof. reflexivity. Qed.
(** the inversion formula, for every order and every z off [0, infinity):
    Li_n(z) + (-1)^n Li_n(1/z) = sum_m gam(n-m)/m! Log(-z)^m,
    gam(0) = -1, gam(odd) = 0, gam(2j) = 2 Li_{2j}(-1) *)
Theorem C45_spec_inversion n z : fst z < 0 \/ snd z <> 0 ->
  Cplus (CLi n z) (Cmult (RtoC ((-1) ^ n)) (CLi n (Cinv z))) = restC (fun j => ReLi j (-1)) (fun m => / INR (fact m)) n (Clog (Copp z)).
Proof. apply (CLi_inversion n z). Qed.

(** ** accuracy *)
(** [f] (the code over the exact numbers with machine epsilon [e]) approximates Li_n with tolerance [eps]
    at every z with nonzero imaginary part: relative to |z| inside the unit disc, relative to
    (1+|Log(-z)|)^n, the growth of Li_n, outside *)
Definition accurate (n : nat) (eps e : R) (f : cpx (NumR e) -> cpx (NumR e)) : Prop := forall z : C, snd z <> 0 ->
  exists v : C, f (ofC e z) = ofC e v /\
    (Cmod z <= 1 -> Cmod (Cminus v (CLi n z)) <= eps * Cmod z) /\
    (1 < Cmod z -> Cmod (Cminus v (CLi n z)) <= eps * (1 + Cmod (Clog (Copp z))) ^ n).

Theorem C45_Li2_float : accurate 2 (5 / 10 ^ 7) eps_f (cLi2_f (NumR eps_f)).
Proof. intros z H. exact (acc_cLi2_f z H). Qed.
Theorem C45_Li2_double : accurate 2 (27 / 10 ^ 17) eps_d (cLi2_d (NumR eps_d)).
Proof. intros z H. exact (acc_cLi2_d z H). Qed.
Theorem C45_Li2_long_double : accurate 2 (5 / 10 ^ 18) eps_l (cLi2_l (NumR eps_l)).
Proof. intros z H. exact (acc_cLi2_l z H). Qed.
Theorem C45_Li2_quadruple : accurate 2 (3 / 10 ^ 35) eps_q (cLi2_q (NumR eps_q)).
Proof. intros z H. exact (acc_cLi2_q z H). Qed.
Theorem C45_Li3_double : accurate 3 (11 / 10 ^ 15) eps_d (cLi3_d (NumR eps_d)).
Proof. intros z H. exact (acc_cLi3_d eps_d z H). Qed.
Theorem C45_Li3_long_double : accurate 3 (9 / 10 ^ 18) eps_l (cLi3_l (NumR eps_l)).
Proof. intros z H. exact (acc_cLi3_l eps_l z H). Qed.
Theorem C45_Li3_quadruple : accurate 3 (1 / 10 ^ 34) eps_q (cLi3_q (NumR eps_q)).
Proof. intros z H. exact (acc_cLi3_q eps_q z H). Qed.
Theorem C45_Li4_double : accurate 4 (8 / 10 ^ 15) eps_d (cLi4_d (NumR eps_d)).
Proof. intros z H. exact (acc_cLi4_d eps_d z H). Qed.
Theorem C45_Li4_long_double : accurate 4 (45 / 10 ^ 19) eps_l (cLi4_l (NumR eps_l)).
Proof. intros z H. exact (acc_cLi4_l eps_l z H). Qed.
Theorem C45_Li4_quadruple : accurate 4 (1 / 10 ^ 34) eps_q (cLi4_q (NumR eps_q)).
Proof. intros z H. exact (acc_cLi4_q eps_q z H). Qed.
Theorem C45_Li5_double : accurate 5 (1 / 10 ^ 15) eps_d (cLi5_d (NumR eps_d)).
Proof. intros z H. exact (acc_cLi5_d eps_d z H). Qed.
Theorem C45_Li5_long_double : accurate 5 (18 / 10 ^ 18) eps_l (cLi5_l (NumR eps_l)).
Proof. intros z H. exact (acc_cLi5_l eps_l z H). Qed.
Theorem C45_Li5_quadruple : accurate 5 (1 / 10 ^ 34) eps_q (cLi5_q (NumR eps_q)).
Proof. intros z H. exact (acc_cLi5_q eps_q z H). Qed.
Theorem C45_Li6_double : accurate 6 (3 / 10 ^ 15) eps_d (cLi6_d (NumR eps_d)).
Proof. intros z H. exact (acc_cLi6_d eps_d z H). Qed.
Theorem C45_Li6_long_double : accurate 6 (4 / 10 ^ 18) eps_l (cLi6_l (NumR eps_l)).
Proof. intros z H. exact (acc_cLi6_l eps_l z H). Qed.
Theorem C45_Li6_quadruple : accurate 6 (2 / 10 ^ 34) eps_q (cLi6_q (NumR eps_q)).
Proof. intros z H. exact (acc_cLi6_q eps_q z H). Qed.

(** ** C27: the branches *)
(** [branches n f]: off the real axis the code of Li_n is always exactly one of three fixed polynomial
    expressions (real coefficients, the same for all z): a polynomial plus the logarithmic term of the series at
    unity in w = Log z with |w| < 1; a polynomial without constant term in u = -Log(1-z), |u| <= 1.1; or such a
    polynomial in u = -Log(1-1/z), |u| <= 1.1, plus a polynomial remainder in the code's Log(-z), whose
    imaginary part is arg(z) -+ p with p the code's literal for pi.  The series in w and u converge for |w|, |u| < 2 pi. *)
Definition branches (n : nat) (e : R) (f : cpx (NumR e) -> cpx (NumR e)) : Prop :=
  exists (Pw Pu Pr : list R) (p : R), forall z : C, snd z <> 0 ->
    (Cmod (Clog z) < 1 /\ f (ofC e z) = ofC e (Cplus (cpev Pw (Clog z)) (Cmult (Cmult (RtoC (/ INR (fact (n - 1)))) (Cpow (Clog z) (n - 1))) (Cminus (RtoC (Clausen.Hm (n - 1))) (Clog (Copp (Clog z))))))) \/
    (1 <= Cmod (Clog z) /\ Cmod z <= 1 /\ Cmod (Clog (Cminus (RtoC 1) z)) <= 11 / 10 /\
       f (ofC e z) = ofC e (cpev (0 :: Pu) (Copp (Clog (Cminus (RtoC 1) z))))) \/
    (1 <= Cmod (Clog z) /\ 1 < Cmod z /\ Cmod (Clog (Cminus (RtoC 1) (Cinv z))) <= 11 / 10 /\
       f (ofC e z) = ofC e (Cplus (cpev Pr (ln (Cmod z), if Rlt_dec 0 (Carg z) then Carg z - p else Carg z + p))
                                  (Cmult (RtoC (- (-1) ^ n)) (cpev (0 :: Pu) (Copp (Clog (Cminus (RtoC 1) (Cinv z)))))))).
Lemma branches_cval n e f Ul Tl p z2 sg : (3 <= n <= 6)%nat -> sg = - (-1) ^ n -> (forall z, snd z <> 0 -> f (ofC e z) = ofC e (cval n Ul Tl p z2 sg z)) -> branches n e f.
Proof.
  intros Hn Hs E. exists (map rq Ul), (map rq Tl), (rlist n p z2), p. intros z H. rewrite (E z H). unfold cval.
  assert (Z0 : z <> RtoC 0) by (intros Q; apply H; rewrite Q; reflexivity). pose proof (Cmod_ge_0 (Clog z)) as W0.
  assert (G1 : forall y, good (11 / 10) y -> Cmod (Clog (Cminus (RtoC 1) y)) <= 11 / 10).
  { intros y G. pose proof (G 1 ltac:(lra)) as (_ & G2 & _). replace (Cmult (RtoC 1) y) with y in G2 by ring. unfold U in G2. rewrite Cmod_opp in G2. exact G2. }
  destruct (Rlt_dec (Cmod (Clog z) * Cmod (Clog z)) 1) as [B|B].
  - left. split; [nra|]. destruct n as [|m]; [lia|]. unfold Lm, inv_fact. replace (S m - 1)%nat with m by lia. reflexivity.
  - right. assert (W1 : 1 <= Cmod (Clog z)) by nra. destruct (Rle_dec (Cmod z) 1) as [L|L].
    + left. split; [exact W1|]. split; [exact L|]. split; [apply G1, regionB_good; assumption|]. cbn [map]. rewrite rq0. reflexivity.
    + right. apply Rnot_le_lt in L. split; [exact W1|]. split; [exact L|]. split.
      * apply G1, regionB_good; [rewrite Cmod_inv by exact Z0; rewrite <- Rinv_1; apply Rinv_le_contravar; lra|rewrite Clog_inv, Cmod_opp by exact H; exact W1|].
        intros Q. apply (Cinv_im_ne z H). rewrite Q. reflexivity.
      * rewrite restq_list by exact Hn. rewrite Hs. cbn [map]. rewrite rq0. reflexivity.
Qed.

Theorem C27_Li3_double e : branches 3 e (cLi3_d (NumR e)).
Proof. eapply (branches_cval 3); [lia| |apply ev_cLi3_d]. cbn [pow]. ring. Qed.
Theorem C27_Li3_long_double e : branches 3 e (cLi3_l (NumR e)).
Proof. eapply (branches_cval 3); [lia| |intros z H; exact (ev_cLi3_l e z (or_introl H))]. cbn [pow]. ring. Qed.
Theorem C27_Li3_quadruple e : branches 3 e (cLi3_q (NumR e)).
Proof. eapply (branches_cval 3); [lia| |intros z H; exact (ev_cLi3_q e z (or_introl H))]. cbn [pow]. ring. Qed.
Theorem C27_Li4_double e : branches 4 e (cLi4_d (NumR e)).
Proof. eapply (branches_cval 4); [lia| |apply ev_cLi4_d]. cbn [pow]. ring. Qed.
Theorem C27_Li4_long_double e : branches 4 e (cLi4_l (NumR e)).
Proof. eapply (branches_cval 4); [lia| |intros z H; exact (ev_cLi4_l e z (or_introl H))]. cbn [pow]. ring. Qed.
Theorem C27_Li4_quadruple e : branches 4 e (cLi4_q (NumR e)).
Proof. eapply (branches_cval 4); [lia| |intros z H; exact (ev_cLi4_q e z (or_introl H))]. cbn [pow]. ring. Qed.
Theorem C27_Li5_double e : branches 5 e (cLi5_d (NumR e)).
Proof. eapply (branches_cval 5); [lia| |intros z H; exact (ev_cLi5_d e z (or_introl H))]. cbn [pow]. ring. Qed.
Theorem C27_Li5_long_double e : branches 5 e (cLi5_l (NumR e)).
Proof. eapply (branches_cval 5); [lia| |intros z H; exact (ev_cLi5_l e z (or_introl H))]. cbn [pow]. ring. Qed.
Theorem C27_Li5_quadruple e : branches 5 e (cLi5_q (NumR e)).
Proof. eapply (branches_cval 5); [lia| |intros z H; exact (ev_cLi5_q e z (or_introl H))]. cbn [pow]. ring. Qed.
Theorem C27_Li6_double e : branches 6 e (cLi6_d (NumR e)).
Proof. eapply (branches_cval 6); [lia| |intros z H; exact (ev_cLi6_d e z (or_introl H))]. cbn [pow]. ring. Qed.
Theorem C27_Li6_long_double e : branches 6 e (cLi6_l (NumR e)).
Proof. eapply (branches_cval 6); [lia| |intros z H; exact (ev_cLi6_l e z (or_introl H))]. cbn [pow]. ring. Qed.
Theorem C27_Li6_quadruple e : branches 6 e (cLi6_q (NumR e)).
Proof. eapply (branches_cval 6); [lia| |intros z H; exact (ev_cLi6_q e z (or_introl H))]. cbn [pow]. ring. Qed.

(** the dilogarithm: for |z|^2 < epsilon the two-term polynomial; otherwise a polynomial in u with |u| <= 1.1, where
    u = -Log(1-z), u = -Log(1-1/z) or u = -Log z *)
Definition branches2 (e : R) (f : cpx (NumR e) -> cpx (NumR e)) : Prop :=
  exists (P : list R) (p : R), forall z : C, snd z <> 0 ->
    (Cmod z * Cmod z < e /\ f (ofC e z) = ofC e (Cmult z (Cplus (RtoC 1) (Cmult (RtoC (/ 4)) z)))) \/
    (Cmod z <= 1 /\ fst z <= / 2 /\ Cmod (Clog (Cminus (RtoC 1) z)) <= 11 / 10 /\ f (ofC e z) = ofC e (cpev (0 :: P) (Copp (Clog (Cminus (RtoC 1) z))))) \/
    (1 < Cmod z /\ Cmod (Clog (Cminus (RtoC 1) (Cinv z))) <= 11 / 10 /\
       f (ofC e z) = ofC e (Cplus (Copp (cpev (0 :: P) (Copp (Clog (Cminus (RtoC 1) (Cinv z)))))) (Cplus (RtoC (- (p * p / 6))) (Cmult (RtoC (- / 2)) (Cmult (Clog (Copp z)) (Clog (Copp z))))))) \/
    (/ 2 < fst z /\ Cmod (Clog z) <= 11 / 10 /\
       f (ofC e z) = ofC e (Cplus (Copp (cpev (0 :: P) (Copp (Clog z)))) (Cplus (Cmult (Copp (Clog z)) (Clog (Cminus (RtoC 1) z))) (RtoC (p * p / 6))))).
Lemma branches2_val e f p bf : (forall z, snd z <> 0 -> f (ofC e z) = ofC e (c2val e p bf z)) -> branches2 e f.
Proof.
  intros E. exists (map rq ((1, 1)%Z :: T2 bf)), p. intros z H. rewrite (E z H). unfold c2val.
  assert (Z0 : z <> RtoC 0) by (intros Q; apply H; rewrite Q; reflexivity). pose proof (Cmod_ge_0 z) as W0.
  assert (G1 : forall y, regionA y -> Cmod (Clog (Cminus (RtoC 1) y)) <= 11 / 10).
  { intros y G. pose proof (regionA_pt y G) as (_ & G2 & _). unfold U in G2. rewrite Cmod_opp in G2. exact G2. }
  assert (RR : forall L, cpev (rlist 2 p 0) L = Cplus (RtoC (- (p * p / 6))) (Cmult (RtoC (- / 2)) (Cmult L L))) by (intros L; cbn [rlist cpev]; ring).
  rewrite map_cons.
  destruct (Rlt_dec (Cmod z * Cmod z) e) as [B|B]; [left; split; [exact B|reflexivity]|right]. rewrite RR. rewrite rq0.
  destruct (Rle_dec (fst z) (/ 2)) as [R1|R1].
  - destruct (Rlt_dec 1 (Cmod z * Cmod z)) as [N1|N1].
    + right; left. split; [nra|]. split; [apply G1, inv_regionA; [exact Z0|exact N1|lra]|reflexivity].
    + left. assert (L1 : Cmod z <= 1) by nra. split; [exact L1|]. split; [exact R1|]. split; [apply G1; split; assumption|reflexivity].
  - apply Rnot_le_lt in R1. destruct (Rle_dec (Cmod z * Cmod z) (2 * fst z)) as [N1|N1].
    + right; right. split; [exact R1|]. split; [apply log_region; [lra|exact N1]|reflexivity].
    + apply Rnot_le_lt in N1. right; left. split; [nra|]. split; [apply G1, inv_regionA; [exact Z0|lra|lra]|reflexivity].
Qed.

Theorem C27_Li2_float e : branches2 e (cLi2_f (NumR e)).
Proof. apply (branches2_val _ _ _ _ (ev_cLi2_f e)). Qed.
Theorem C27_Li2_double e : branches2 e (cLi2_d (NumR e)).
Proof. apply (branches2_val _ _ _ _ (ev_cLi2_d e)). Qed.
Theorem C27_Li2_long_double e : branches2 e (cLi2_l (NumR e)).
Proof. apply (branches2_val _ _ _ _ (ev_cLi2_l e)). Qed.
Theorem C27_Li2_quadruple e : branches2 e (cLi2_q (NumR e)).
Proof. apply (branches2_val _ _ _ _ (ev_cLi2_q e)). Qed.

(** a concrete case of each branch: z = 1/2 + i is outside the disc and in none of the small regions *)
Example C45_case : snd (/ 2, 1) <> 0 /\ 1 < Cmod (/ 2, 1).
Proof. cbn. split; [lra|]. apply Rsqr_incrst_0; [|lra|apply Cmod_ge_0]. unfold Rsqr. rewrite Cmod_sq. cbn. lra. Qed.
