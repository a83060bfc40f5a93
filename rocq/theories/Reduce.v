(** * The shape "sign times a function of the reduced angle" (exact arithmetic) *)
From Coq Require Import Reals ZArith Lra Lia List Bool.
From Flocq Require Import Core.
From Coquelicot Require Import Coquelicot.
From Verif Require Import Num Outcome NumR Eval_R Model_Cl16 Model_SlPoly Model_Cl Fourier Clausen Consts Cl_shape Proof_Cl Cl_full Series Red Proof_Series.
Local Open Scope R_scope.

Definition sgP (P x : R) : R := sg x * (if Rlt_dec P (redb P x) then -1 else 1).
Definition smul (s : R) (v : out (option R)) : out (option R) :=
  match v with Val (Some r) => Val (Some (s * r)) | Val None => Val None | Ub => Ub | NoFuel => NoFuel end.
(** f(x) = [sign] G(reduced x) *)
Definition shaped (P S : R) (flip : bool) (f : R -> out (option R)) : Prop :=
  exists G : R -> out (option R), forall x, f x = if flip then smul (sgP P x) (G (redc P S x)) else G (redc P S x).

Section Sh.
Variables (ep P p1 S : R) (core : option R -> option R).
Hypothesis HP : 3 < P < 4.
Hypothesis HS : S = litR 628125 (-5) + p1.
Local Notation pr := (@pair (car (NumR ep)) (car (NumR ep))).
Lemma even_shape : shaped P S true (fun x => Val (cl_even (NumR ep) (Some P) (Some p1) core (Some x))).
Proof.
  exists (fun r => if Req_EM_T r 0 then Val (Some 0) else if Req_EM_T r P then Val (Some 0) else Val (core (Some r))).
  intros x. unfold cl_even.
  assert (S1 : (if ltb (NumR ep) (Some x) (lit (NumR ep) 0 0) then pr (opp (NumR ep) (Some x)) (lit (NumR ep) (-1) 0) else pr (Some x) (lit (NumR ep) 1 0)) = pr (Some (Rabs x)) (Some (sg x))).
  { cbn [NumR lit ltb opp car ocmp lift1]. rewrite !litR_int. unfold Rltb, sg. destruct (Rlt_dec x 0); [rewrite Rabs_left|rewrite Rabs_pos_eq]; reflexivity || lra. }
  rewrite S1. cbv beta iota. rewrite redk_R by lra. fold (redb P x).
  assert (S2 : (if ltb (NumR ep) (Some P) (Some (redb P x)) then pr (add (NumR ep) (sub (NumR ep) (lit (NumR ep) 628125 (-5)) (Some (redb P x))) (Some p1)) (opp (NumR ep) (Some (sg x))) else pr (Some (redb P x)) (Some (sg x)))
     = pr (Some (redc P S x)) (Some (sgP P x))).
  { cbn [NumR lit ltb opp sub add car ocmp lift1 lift2]. unfold Rltb, redc, sgP. destruct (Rlt_dec P (redb P x)); f_equal; f_equal; [rewrite HS| | ]; ring. }
  rewrite S2. cbv beta iota. cbn [NumR lit eqb mul car ocmp]. rewrite litR_int. unfold Reqb.
  destruct (Req_EM_T (redc P S x) 0) as [->|]; [cbn; rewrite Rmult_0_r; reflexivity|]. destruct (Req_EM_T (redc P S x) P); [cbn; rewrite Rmult_0_r; reflexivity|].
  unfold smul, lift2. destruct (core (Some (redc P S x))); reflexivity.
Qed.
Lemma odd_shape z : shaped P S false (fun x => Val (cl_odd (NumR ep) (Some P) (Some p1) z core (Some x))).
Proof.
  exists (fun r => if Req_EM_T r 0 then Val z else Val (core (Some r))).
  intros x. unfold cl_odd.
  assert (S1 : (if ltb (NumR ep) (Some x) (lit (NumR ep) 0 0) then opp (NumR ep) (Some x) else Some x) = Some (Rabs x)).
  { cbn [NumR lit ltb opp car ocmp lift1]. rewrite !litR_int. unfold Rltb. destruct (Rlt_dec x 0); [rewrite Rabs_left|rewrite Rabs_pos_eq]; reflexivity || lra. }
  rewrite S1. cbv zeta. rewrite redk_R by lra. fold (redb P x).
  assert (S2 : (if ltb (NumR ep) (Some P) (Some (redb P x)) then add (NumR ep) (sub (NumR ep) (lit (NumR ep) 628125 (-5)) (Some (redb P x))) (Some p1) else Some (redb P x)) = Some (redc P S x)).
  { cbn [NumR lit ltb opp sub add car ocmp lift1 lift2]. unfold Rltb, redc. destruct (Rlt_dec P (redb P x)); [f_equal; rewrite HS; ring|reflexivity]. }
  rewrite S2. cbn [NumR lit eqb mul car ocmp]. rewrite litR_int. unfold Reqb. destruct (Req_EM_T (redc P S x) 0); reflexivity.
Qed.
End Sh.

Lemma flipsg_sgP x : flipsg x = sgP Pd x. Proof. reflexivity. Qed.
Lemma smul_1 v : smul 1 v = v.
Proof. unfold smul. destruct v as [[r|]| |]; [rewrite Rmult_1_l| | |]; reflexivity. Qed.
Lemma smul_mul ep s (e : out (option R)) : bind e (fun v => Val (mul (NumR ep) (Some s) v)) = smul s (bind e (fun v => Val (mul (NumR ep) (Some 1) v))).
Proof. destruct e as [[r|]| |]; cbn [bind smul NumR mul lift2]; [rewrite Rmult_1_l|..]; reflexivity. Qed.

Lemma litR1 : litR 1 0 = 1. Proof. rewrite litR_int. reflexivity. Qed.

Definition ClBody (ep : R) (n : Z) (sgn : option R) (r : option R) : out (option R) :=
    let N := NumR ep in
    if (is_even n && eqb N r (lit N 0 0))%bool then Val r
    else if (is_even n && eqb N r (Cl_PI N))%bool then Val (lit N 0 0)
    else if (n <=? N_THRESH)%Z then
      let sign1 := if is_even (Z.quot (n + 1) 2) then lit N 1 0 else lit N (-1) 0 in
      bind (zref (inverse_factorial N) (n - 1)%Z) (fun f1 =>
      let term1 := if eqb N r (lit N 0 0) then lit N 0 0
                   else mul N (mul N (mul N sign1 (npow N r (ofZ N (n - 1)%Z))) f1) (nlog N (mul N (lit N 2 0) (nsin N (div N r (lit N 2 0))))) in
      let sign2 := if is_even (Z.quot n 2) then lit N 1 0 else lit N (-1) 0 in
      bind (pcal N n r) (fun pc =>
      bind (zref (inverse_factorial N) (n - 2)%Z) (fun f2 =>
      bind (nsum N n r) (fun ns =>
      let term2 := sub N pc (mul N (mul N sign2 f2) ns) in
      Val (mul N sgn (add N term1 term2))))))
    else bind (cl_series N n r) (fun s => Val (mul N sgn s)).
Lemma Cl_body ep n x : (7 <= n)%Z -> Cl (NumR ep) n x = let '(sgn, r) := Cl_range_reduce (NumR ep) n x in ClBody ep n sgn r.
Proof. intros H. unfold Cl. rewrite zltb_false by lia. rewrite !zeqb_false by lia. reflexivity. Qed.
Lemma ClBody_scale ep n s r : (is_even n = true) -> ClBody ep n (Some s) (Some r) = smul s (ClBody ep n (Some 1) (Some r)).
Proof.
  intros E. unfold ClBody. cbv zeta. rewrite E. cbn [andb].
  replace (eqb (NumR ep) (Some r) (lit (NumR ep) 0 0)) with (Reqb r 0) by (cbn [NumR eqb lit car ocmp]; rewrite litR_int; reflexivity). unfold Reqb.
  destruct (Req_EM_T r 0) as [->|]; [cbn [smul]; rewrite Rmult_0_r; reflexivity|].
  destruct (eqb (NumR ep) (Some r) (Cl_PI (NumR ep))).
  { cbn [NumR lit car smul]. rewrite litR_int, Rmult_0_r. reflexivity. }
  destruct (n <=? N_THRESH)%Z; [|apply smul_mul].
  destruct (zref (inverse_factorial (NumR ep)) (n - 1)) as [f1| |]; [|reflexivity|reflexivity]. cbn [bind].
  destruct (pcal (NumR ep) n (Some r)) as [pc| |]; [|reflexivity|reflexivity]. cbn [bind].
  destruct (zref (inverse_factorial (NumR ep)) (n - 2)) as [f2| |]; [|reflexivity|reflexivity]. cbn [bind].
  destruct (nsum (NumR ep) n (Some r)) as [ns| |]; [|reflexivity|reflexivity]. cbn [bind].
  match goal with |- Val (mul _ _ ?t) = _ => exact (smul_mul ep s (Val t)) end.
Qed.
Lemma big_shape ep n : (7 <= n)%Z -> shaped Pd Sd (is_even n) (fun x => Cl (NumR ep) n (Some x)).
Proof.
  intros H. exists (fun r => ClBody ep n (Some 1) (Some r)). intros x. rewrite Cl_body by exact H. unfold Cl_range_reduce.
  destruct (is_even n) eqn:E.
  - rewrite flip_R. apply ClBody_scale. exact E.
  - rewrite noflip_R. cbn [NumR lit]. rewrite litR1. reflexivity.
Qed.
Lemma shaped_ext P S b f g : (forall x, f x = g x) -> shaped P S b f -> shaped P S b g.
Proof. intros E (G & H). exists G. intros x. rewrite <- E. apply H. Qed.
Lemma p1d_eq ep : p1d (NumR ep) = Some (IZR 19353071795864769253 / 10 ^ 22). Proof. apply p1d_R. Qed.
Ltac shp L := eapply shaped_ext; [intros x; rewrite L, PId_R, p1d_R; reflexivity|].
Theorem Cl_shaped ep n : (1 <= n)%Z -> shaped Pd Sd (is_even n) (fun x => Cl (NumR ep) n (Some x)).
Proof.
  intros H. destruct (Z_lt_le_dec n 7) as [L|L]; [|apply big_shape; exact L].
  assert (C : n = 1%Z \/ n = 2%Z \/ n = 3%Z \/ n = 4%Z \/ n = 5%Z \/ n = 6%Z) by lia.
  destruct C as [-> |[-> |[-> |[-> |[-> | ->]]]]]; cbv [Cl Z.ltb Z.eqb Z.compare Pos.compare Pos.compare_cont Pos.eqb is_even Z.rem Z.quotrem N.pos_div_eucl N.div_eucl].
  - eapply shaped_ext; [intros x; rewrite Cl1_shape, PId_R, p1d_R; reflexivity|]. apply odd_shape; [exact HPd|exact HSd].
  - eapply shaped_ext; [intros x; rewrite Cl2_d_shape, PId_R, p1d_R; reflexivity|]. apply even_shape; [exact HPd|exact HSd].
  - eapply shaped_ext; [intros x; rewrite Cl3_d_shape, PId_R, p1d_R; reflexivity|]. apply odd_shape; [exact HPd|exact HSd].
  - eapply shaped_ext; [intros x; rewrite Cl4_d_shape, PId_R, p1d_R; reflexivity|]. apply even_shape; [exact HPd|exact HSd].
  - eapply shaped_ext; [intros x; rewrite Cl5_d_shape, PId_R, p1d_R; reflexivity|]. apply odd_shape; [exact HPd|exact HSd].
  - eapply shaped_ext; [intros x; rewrite Cl6_d_shape, PId_R, p1d_R; reflexivity|]. apply even_shape; [exact HPd|exact HSd].
Qed.
Lemma Cll_shaped ep : 
  shaped Pl Sl true (fun x => Val (Cl2_l (NumR ep) (Some x))) /\ shaped Pl Sl false (fun x => Val (Cl3_l (NumR ep) (Some x))) /\
  shaped Pl Sl true (fun x => Val (Cl4_l (NumR ep) (Some x))) /\ shaped Pl Sl false (fun x => Val (Cl5_l (NumR ep) (Some x))) /\
  shaped Pl Sl true (fun x => Val (Cl6_l (NumR ep) (Some x))).
Proof.
  repeat split.
  - eapply shaped_ext; [intros x; rewrite Cl2_l_shape, PIl_R, p1l_R; reflexivity|]. apply even_shape; [exact HPl|exact HSl].
  - eapply shaped_ext; [intros x; rewrite Cl3_l_shape, PIl_R, p1l_R; reflexivity|]. apply odd_shape; [exact HPl|exact HSl].
  - eapply shaped_ext; [intros x; rewrite Cl4_l_shape, PIl_R, p1l_R; reflexivity|]. apply even_shape; [exact HPl|exact HSl].
  - eapply shaped_ext; [intros x; rewrite Cl5_l_shape, PIl_R, p1l_R; reflexivity|]. apply odd_shape; [exact HPl|exact HSl].
  - eapply shaped_ext; [intros x; rewrite Cl6_l_shape, PIl_R, p1l_R; reflexivity|]. apply even_shape; [exact HPl|exact HSl].
Qed.

(** ** Sl *)
Lemma poly_scale ep n f : Sl_poly (NumR ep) n = Some f -> exists e : option R -> option R, forall s r, f s r = mul (NumR ep) s (e r).
Proof.
  unfold Sl_poly. intros H. apply nth_error_In in H. cbn [In] in H.
  repeat (destruct H as [<-|H]; [eexists; intros s r; match goal with |- ?p _ _ _ = _ => unfold p end; cbv zeta; reflexivity|]).
  contradiction.
Qed.
Definition SlBody (ep : R) (n : Z) (sgn r : option R) : out (option R) :=
    if (negb (is_even n) && eqb (NumR ep) r (lit (NumR ep) 0 0))%bool then Val r
    else match Sl_poly (NumR ep) n with
         | Some f => Val (f sgn r)
         | None => bind (sl_series (NumR ep) n r) (fun s => Val (mul (NumR ep) sgn s))
         end.
Lemma Sl_body ep n x : (1 <= n)%Z -> Model_Cl.Sl (NumR ep) n x = let '(sgn, r) := Sl_range_reduce (NumR ep) n x in SlBody ep n sgn r.
Proof. intros H. unfold Model_Cl.Sl. rewrite zltb_false by lia. reflexivity. Qed.
Lemma SlBody_scale ep n s r : is_even n = false -> SlBody ep n (Some s) (Some r) = smul s (SlBody ep n (Some 1) (Some r)).
Proof.
  intros E. unfold SlBody. rewrite E. cbn [negb andb].
  replace (eqb (NumR ep) (Some r) (lit (NumR ep) 0 0)) with (Reqb r 0) by (cbn [NumR eqb lit car ocmp]; rewrite litR_int; reflexivity). unfold Reqb.
  destruct (Req_EM_T r 0) as [->|]; [cbn [smul]; rewrite Rmult_0_r; reflexivity|].
  destruct (Sl_poly (NumR ep) n) as [f|] eqn:F; [|apply smul_mul].
  destruct (poly_scale ep n f F) as (e & He). rewrite !He. exact (smul_mul ep s (Val (e (Some r)))).
Qed.
Theorem Sl_shaped ep n : (1 <= n)%Z -> shaped Pd Sd (negb (is_even n)) (fun x => Model_Cl.Sl (NumR ep) n (Some x)).
Proof.
  intros H. exists (fun r => SlBody ep n (Some 1) (Some r)). intros x. rewrite Sl_body by exact H. unfold Sl_range_reduce.
  destruct (is_even n) eqn:E; cbn [negb].
  - rewrite noflip_R. cbn [NumR lit]. rewrite litR1. reflexivity.
  - rewrite flip_R. apply SlBody_scale. exact E.
Qed.

(** ** consequences of the shape *)
Section Cons.
Variables (P S : R).
Hypothesis HP : 3 < P < 4.
Lemma red_id r : 0 <= r <= P -> redb P r = r /\ redc P S r = r /\ sgP P r = 1.
Proof.
  intros H. assert (K : redk P (Rabs r) = 0%Z) by (unfold redk; rewrite Rabs_pos_eq by lra; destruct (Rle_dec (2 * P) r); [lra|reflexivity]).
  assert (B : redb P r = r) by (unfold redb; rewrite K, Rabs_pos_eq by lra; ring).
  split; [exact B|]. unfold redc, sgP, sg. rewrite B. destruct (Rlt_dec P r); [lra|]. destruct (Rlt_dec r 0); [lra|]. split; [reflexivity|ring].
Qed.
Lemma redb_uniq x (k : Z) t : 0 <= t < 2 * P -> Rabs x = t + IZR k * (2 * P) -> redb P x = t.
Proof.
  intros T E. unfold redb. destruct (redk_ok P (Rabs x) ltac:(lra) (Rabs_pos x)) as [K B]. set (j := redk P (Rabs x)) in *.
  assert (j = k); [|subst k; rewrite E; ring].
  rewrite E in B. assert (-1 < IZR k - IZR j < 1) by (split; nra). rewrite <- minus_IZR in H. destruct H as [H1 H2].
  apply (lt_IZR (-1)) in H1. apply (lt_IZR _ 1) in H2. lia.
Qed.
Lemma shaped_red flip f : shaped P S flip f -> forall x (k : Z) t r s, 0 <= t < 2 * P -> Rabs x = t + IZR k * (2 * P) -> 0 <= r ->
  (t <= P -> r = t /\ s = sg x) -> (P < t -> r = S - t /\ s = - sg x) -> S - t <= P \/ t <= P ->
  f x = if flip then smul s (f r) else f r.
Proof.
  intros (G & H) x k t r s T E R0 H1 H2 H3. pose proof (redb_uniq x k t T E) as B.
  assert (RC : redc P S x = r /\ sgP P x = s /\ r <= P).
  { unfold redc, sgP. rewrite B. destruct (Rlt_dec P t) as [L|L].
    - destruct (H2 L) as [-> ->]. split; [reflexivity|]. split; [ring|]. lra.
    - destruct (H1 ltac:(lra)) as [-> ->]. split; [reflexivity|]. split; [ring|]. lra. }
  destruct RC as (C1 & C2 & C3). destruct (red_id r ltac:(lra)) as (_ & D1 & D2).
  rewrite !H, C1, C2, D1, D2. destruct flip; [|reflexivity]. rewrite smul_1. reflexivity.
Qed.
Lemma shaped_per flip f : shaped P S flip f -> forall x (k : Z), 0 <= x -> (0 <= k)%Z -> f (x + IZR k * (2 * P)) = f x.
Proof.
  intros (G & H) x k X K. assert (0 <= IZR k) by (apply (IZR_le 0); exact K). rewrite !H.
  destruct (redk_ok P x ltac:(lra) X) as [K0 B0].
  assert (E0 : redb P x = x - 2 * P * IZR (redk P x)) by (unfold redb; rewrite Rabs_pos_eq by exact X; reflexivity).
  assert (E1 : redb P (x + IZR k * (2 * P)) = redb P x).
  { apply (redb_uniq _ (redk P x + k)); [rewrite E0; exact B0|]. rewrite Rabs_pos_eq by nra. rewrite E0, plus_IZR. ring. }
  assert (SG : sg (x + IZR k * (2 * P)) = sg x) by (unfold sg; destruct (Rlt_dec x 0); [lra|]; destruct (Rlt_dec (x + IZR k * (2 * P)) 0); [nra|reflexivity]).
  unfold sgP, redc. rewrite E1, SG. reflexivity.
Qed.
End Cons.
