(** Lemmas about the binary64 fuel fractions. *)
From Coq Require Import ZArith Bool Reals Lra Lia.
From Flocq Require Import Core.Core Plus_error Mult_error Sterbenz Relative IEEE754.BinarySingleNaN.
From Verif Require Import Base FloatComp.
Open Scope R_scope.

Notation fx := (FLT_exp (-1074) 53).
Notation rnd := (round radix2 fx ZnearestE).
Notation fmt := (generic_format radix2 fx).

Lemma fexp64 : SpecFloat.fexp 53 1024 = fx.
Proof. reflexivity. Qed.

Lemma B2R_fmt (x : f64) : fmt (B2R x).
Proof. apply (generic_format_B2R 53 1024). Qed.

Local Instance p53 : Prec_gt_0 53 := eq_refl.

Lemma rnd_mono x y : x <= y -> rnd x <= rnd y.
Proof. apply round_le; typeclasses eauto. Qed.
Lemma rnd_id x : fmt x -> rnd x = x.
Proof. apply round_generic; typeclasses eauto. Qed.
Lemma rnd_0 : rnd 0 = 0. Proof. apply round_0; typeclasses eauto. Qed.
Lemma fmt_1 : fmt 1. Proof. change 1 with (bpow radix2 0). apply generic_format_bpow. unfold FLT_exp; lia. Qed.

(** Non-negative values: finite and >= 0, or +inf. *)
Definition nn (x : f64) : Prop := (is_finite x = true /\ 0 <= B2R x) \/ x = B754_infinity false.
Definition fin_nn (x : f64) : Prop := is_finite x = true /\ 0 <= B2R x.

Lemma SF_inf (x : f64) s : B2SF x = SpecFloat.S754_infinity s -> x = B754_infinity s.
Proof. destruct x; cbn; try discriminate. intro H; injection H as ->; reflexivity. Qed.

Lemma fadd_cases x y : is_finite x = true -> is_finite y = true ->
  (Rabs (rnd (B2R x + B2R y)) < bpow radix2 1024 /\ B2R (fadd x y) = rnd (B2R x + B2R y) /\ is_finite (fadd x y) = true) \/
  (bpow radix2 1024 <= Rabs (rnd (B2R x + B2R y)) /\ fadd x y = B754_infinity (Bsign x) /\ Bsign x = Bsign y).
Proof.
  intros Hx Hy. pose proof (Bplus_correct 53 1024 Hprec64 Hmax64 mode_NE x y Hx Hy) as H.
  rewrite fexp64 in H. change (round_mode mode_NE) with ZnearestE in H.
  destruct (Rlt_bool_spec (Rabs (rnd (B2R x + B2R y))) (bpow radix2 1024)) as [L|L].
  - left; tauto.
  - right; split; [exact L|]. destruct H as [H1 H2]. split; [|exact H2]. apply SF_inf. exact H1.
Qed.
Lemma fsub_cases x y : is_finite x = true -> is_finite y = true ->
  Rabs (rnd (B2R x - B2R y)) < bpow radix2 1024 -> B2R (fsub x y) = rnd (B2R x - B2R y) /\ is_finite (fsub x y) = true.
Proof.
  intros Hx Hy L. pose proof (Bminus_correct 53 1024 Hprec64 Hmax64 mode_NE x y Hx Hy) as H.
  rewrite fexp64 in H. change (round_mode mode_NE) with ZnearestE in H.
  rewrite Rlt_bool_true in H by exact L. tauto.
Qed.

Lemma sign_true_nonpos (x : f64) : Bsign x = true -> is_finite x = true -> B2R x <= 0.
Proof.
  destruct x as [s|s| |s m e H]; cbn; try discriminate; intros E _; subst; [lra|].
  apply Float_prop.F2R_le_0. cbn. lia.
Qed.

Lemma fadd_nn x y : fin_nn x -> fin_nn y ->
  (B2R (fadd x y) = rnd (B2R x + B2R y) /\ is_finite (fadd x y) = true /\ 0 <= B2R (fadd x y) /\
   B2R x <= B2R (fadd x y) /\ B2R y <= B2R (fadd x y)) \/ fadd x y = B754_infinity false.
Proof.
  intros [Fx Hx] [Fy Hy]. destruct (fadd_cases x y Fx Fy) as [(L & E & F)|(L & E & S)].
  - left. rewrite E. split; [reflexivity|]. split; [exact F|].
    assert (B2R x <= rnd (B2R x + B2R y)) by (rewrite <- (rnd_id (B2R x)) at 1 by apply B2R_fmt; apply rnd_mono; lra).
    assert (B2R y <= rnd (B2R x + B2R y)) by (rewrite <- (rnd_id (B2R y)) at 1 by apply B2R_fmt; apply rnd_mono; lra).
    lra.
  - right. rewrite E. f_equal. destruct (Bsign x) eqn:Sx; [|reflexivity]. exfalso.
    pose proof (sign_true_nonpos x Sx Fx). pose proof (sign_true_nonpos y (eq_sym S) Fy).
    replace (B2R x + B2R y) with 0 in L by lra. rewrite rnd_0, Rabs_R0 in L.
    pose proof (bpow_gt_0 radix2 1024). lra.
Qed.

Lemma fadd_0_l x : fin_nn x -> fin_nn (fadd f0 x) /\ B2R (fadd f0 x) = B2R x.
Proof.
  intros [Fx Hx]. assert (F0 : is_finite f0 = true) by reflexivity.
  destruct (fadd_cases f0 x F0 Fx) as [(L & E & F)|(L & E & S)];
  change (B2R f0) with 0 in *; rewrite Rplus_0_l, (rnd_id _ (B2R_fmt x)) in *.
  - unfold fin_nn; rewrite E; auto.
  - exfalso. pose proof (abs_B2R_lt_emax 53 1024 x). lra.
Qed.
Lemma fadd_inf_l y : y <> B754_nan -> y <> B754_infinity true -> fadd (B754_infinity false) y = B754_infinity false.
Proof. destruct y as [s|[]| |s m e H]; cbn; congruence || reflexivity. Qed.
Lemma fin_not (y : f64) : is_finite y = true -> y <> B754_nan /\ y <> B754_infinity true.
Proof. destruct y; cbn; split; congruence. Qed.

(** The plain sum dominates each term. *)
Definition dominates (s : f64) (l : list f64) : Prop :=
  s = B754_infinity false \/
  (fin_nn s /\ forall x, In x l -> B2R x <= B2R s).

Lemma sum_plain_dom a b c : fin_nn a -> fin_nn b -> fin_nn c -> dominates (sum_plain a b c) [a; b; c].
Proof.
  intros Ha Hb Hc. unfold sum_plain. destruct (fadd_0_l a Ha) as [Ha' Ea].
  destruct (fadd_nn _ b Ha' Hb) as [(E1 & F1 & P1 & L1 & L2)|E1].
  - destruct (fadd_nn _ c (conj F1 P1) Hc) as [(E2 & F2 & P2 & L3 & L4)|E2]; [|left; exact E2].
    right. split; [split; assumption|]. intros x [<-|[<-|[<-|[]]]]; lra.
  - left. rewrite E1. apply fadd_inf_l; apply fin_not, Hc.
Qed.

(** *** Compensated sum. *)
Lemma rnd_le_2 x : Rabs (rnd x) <= 2 * Rabs x.
Proof.
  assert (H : Rabs (rnd x - x) <= Rabs (0 - x)).
  { apply (round_N_pt radix2 fx (fun z => negb (Z.even z)) x). apply generic_format_0. }
  replace (0 - x) with (- x) in H by ring. rewrite Rabs_Ropp in H.
  replace (rnd x) with ((rnd x - x) + x) by ring. eapply Rle_trans; [apply Rabs_triang|]. lra.
Qed.

Lemma u_small : u_ro radix2 53 / (1 + u_ro radix2 53) <= / 16.
Proof.
  eapply Rle_trans; [apply u_rod1pu_ro_le_u_ro|]. unfold u_ro.
  apply Rle_trans with (/ 2 * bpow radix2 (-3)).
  - apply Rmult_le_compat_l; [lra|]. apply bpow_le. lia.
  - cbn. lra.
Qed.

(** relative error of one addition *)
Lemma add_err x y : fmt x -> fmt y -> 0 <= x -> 0 <= y -> Rabs (x + y - rnd (x + y)) <= (x + y) / 16.
Proof.
  intros Fx Fy Hx Hy.
  destruct (FLT_plus_error_N_ex radix2 (-1074) 53 (fun z => negb (Z.even z)) x y Fx Fy) as (eps & He & E).
  rewrite E. replace (x + y - (x + y) * (1 + eps)) with (- ((x + y) * eps)) by ring.
  rewrite Rabs_Ropp, Rabs_mult, (Rabs_pos_eq (x + y)) by lra.
  pose proof u_small. assert (Rabs eps <= / 16) by lra. unfold Rdiv. apply Rmult_le_compat_l; lra.
Qed.

Lemma small_bound (x : R) (y : f64) : Rabs x <= B2R y -> is_finite y = true -> Rabs (rnd x) < bpow radix2 1024.
Proof.
  intros Hx Hy. pose proof (abs_B2R_lt_emax 53 1024 y) as L.
  assert (Rabs (rnd x) <= rnd (B2R y)).
  { apply Rabs_le; split.
    - rewrite <- (round_NE_opp radix2 fx). apply rnd_mono. destruct (Rabs_def2 x (Rabs x + 1)); [lra|].
      pose proof (Rle_abs (-x)). rewrite Rabs_Ropp in H1. lra.
    - apply rnd_mono. pose proof (Rle_abs x). lra. }
  rewrite (rnd_id _ (B2R_fmt y)) in H. pose proof (Rle_abs (B2R y)). lra.
Qed.

(** One step computes the exact rounding error. *)
Lemma fast2sum f x : fin_nn f -> fin_nn x -> B2R x <= B2R f -> is_finite (fadd f x) = true ->
  B2R (fadd (fsub f (fadd f x)) x) = B2R f + B2R x - B2R (fadd f x) /\
  is_finite (fadd (fsub f (fadd f x)) x) = true.
Proof.
  intros [Ff Pf] [Fx Px] Hle Ft. set (t := fadd f x) in *.
  destruct (fadd_nn f x (conj Ff Pf) (conj Fx Px)) as [(E & _ & Pt & L1 & L2)|E]; [|fold t in E; rewrite E in Ft; discriminate].
  fold t in E, Pt, L1, L2.
  assert (T2 : B2R t <= 2 * B2R f).
  { rewrite E. rewrite <- (rnd_id (2 * B2R f)); [apply rnd_mono; lra|].
    replace (2 * B2R f) with (B2R f * bpow radix2 1) by (cbn; ring). apply mult_bpow_pos_exact_FLT; [apply B2R_fmt|lia]. }
  assert (G1 : fmt (B2R f - B2R t)).
  { apply (sterbenz radix2 fx); try apply B2R_fmt. lra. }
  assert (B1 : Rabs (B2R f - B2R t) <= B2R t) by (apply Rabs_le; lra).
  destruct (fsub_cases f t Ff Ft) as [S1 S2]; [now apply (small_bound _ t)|].
  rewrite (rnd_id _ G1) in S1.
  assert (G2 : fmt (B2R f + B2R x - B2R t)).
  { rewrite E. replace (B2R f + B2R x - rnd (B2R f + B2R x)) with (- (rnd (B2R f + B2R x) - (B2R f + B2R x))) by ring.
    apply generic_format_opp. apply plus_error; try typeclasses eauto; apply B2R_fmt. }
  assert (V : B2R (fsub f t) + B2R x = B2R f + B2R x - B2R t) by (rewrite S1; ring).
  assert (B2' : Rabs (B2R f + B2R x - B2R t) <= B2R t).
  { apply Rabs_le. lra. }
  destruct (fadd_cases (fsub f t) x S2 Fx) as [(L & E2 & F2)|(L & _)]; rewrite V in *.
  - rewrite (rnd_id _ G2) in E2. split; assumption.
  - exfalso. pose proof (small_bound _ t B2' Ft). lra.
Qed.

Lemma step_err f x : fin_nn f -> fin_nn x -> is_finite (fadd f x) = true ->
  let e := if Bleb (Babs x) (Babs f) then fadd (fsub f (fadd f x)) x else fadd (fsub x (fadd f x)) f in
  B2R e = B2R f + B2R x - B2R (fadd f x) /\ is_finite e = true.
Proof.
  intros Hf Hx Ft e. unfold e. 
  assert (Fa : forall y : f64, is_finite y = true -> is_finite (Babs y) = true) by (intros []; cbn; auto).
  rewrite Bleb_correct by (apply Fa, Hx || apply Fa, Hf).
  rewrite !B2R_Babs, !Rabs_pos_eq by (apply Hx || apply Hf).
  destruct (Rle_bool_spec (B2R x) (B2R f)) as [L|L].
  - now apply fast2sum.
  - assert (C : fadd f x = fadd x f).
    { destruct (fadd_nn f x Hf Hx) as [(E & _)|E]; [|rewrite E in Ft; discriminate].
      assert (F' : is_finite (fadd x f) = true /\ B2R (fadd x f) = B2R (fadd f x)).
      { destruct (fadd_nn x f Hx Hf) as [(E' & F' & _)|E'].
        - split; [exact F'|]. rewrite E, E'. f_equal; ring.
        - exfalso. destruct (fadd_cases x f (proj1 Hx) (proj1 Hf)) as [(_ & _ & F)|(L1 & _)]; [rewrite E' in F; discriminate|].
          destruct (fadd_cases f x (proj1 Hf) (proj1 Hx)) as [(L2 & _)|(_ & E2 & _)]; [|rewrite E2 in Ft; discriminate].
          rewrite Rplus_comm in L1. lra. }
      destruct F' as [F' E'].
      apply B2R_Bsign_inj; auto.
      pose proof (Bplus_correct 53 1024 Hprec64 Hmax64 mode_NE f x (proj1 Hf) (proj1 Hx)) as Q1.
      pose proof (Bplus_correct 53 1024 Hprec64 Hmax64 mode_NE x f (proj1 Hx) (proj1 Hf)) as Q2.
      rewrite (Rplus_comm (B2R x)) in Q2. unfold fadd.
      destruct (Rlt_bool _ _).
      - destruct Q1 as (_ & _ & ->), Q2 as (_ & _ & ->). destruct (Rcompare _ _); auto. apply andb_comm.
      - destruct Q1 as [Q1 _]. unfold fadd in Ft. apply SF_inf in Q1. rewrite Q1 in Ft. discriminate. }
    rewrite C in *. destruct (fast2sum x f Hx Hf ltac:(lra) Ft) as [E F]. split; [rewrite E; ring|exact F].
Qed.


Lemma inf_add_fin k : is_finite k = true -> fadd (B754_infinity false) k = B754_infinity false.
Proof. intro H; apply fadd_inf_l; apply fin_not, H. Qed.

Lemma fin_or_inf x y : fin_nn x -> fin_nn y -> is_finite (fadd x y) = true \/ fadd x y = B754_infinity false.
Proof. intros Hx Hy; destruct (fadd_nn x y Hx Hy) as [(_ & F & _)|E]; auto. Qed.

Lemma final_inf (k : f64) :
  (if negb (Beqb k f0) && is_finite k then fadd (B754_infinity false) k else B754_infinity false) = B754_infinity false.
Proof.
  destruct (negb (Beqb k f0) && is_finite k) eqn:E; [|reflexivity].
  apply andb_prop in E. now apply inf_add_fin.
Qed.

Lemma sum_comp_dom a b c : fin_nn a -> fin_nn b -> fin_nn c -> dominates (sum_compensated a b c) [a; b; c].
Proof.
  intros Ha Hb Hc. unfold sum_compensated, comp_step. destruct (fadd_0_l a Ha) as [Ha' Ea].
  set (a' := fadd f0 a) in *. set (t1 := fadd a' b).
  destruct (fin_or_inf a' b Ha' Hb) as [F1|E1]; [change (is_finite t1 = true) in F1|change (t1 = B754_infinity false) in E1].
  2:{ left. rewrite E1. rewrite (inf_add_fin c (proj1 Hc)). apply final_inf. }
  destruct (fadd_nn a' b Ha' Hb) as [(R1 & _ & P1 & L1 & L2)|E1]; [fold t1 in R1, P1, L1, L2|fold t1 in E1; rewrite E1 in F1; discriminate].
  set (t2 := fadd t1 c).
  destruct (fin_or_inf t1 c (conj F1 P1) Hc) as [F2|E2]; [fold t2 in F2|fold t2 in E2; left; rewrite E2; apply final_inf].
  destruct (fadd_nn t1 c (conj F1 P1) Hc) as [(R2 & _ & P2 & L3 & L4)|E2]; [fold t2 in R2, P2, L3, L4|fold t2 in E2; rewrite E2 in F2; discriminate].
  pose proof (step_err a' b Ha' Hb F1) as S1. cbv zeta in S1. fold t1 in S1.
  pose proof (step_err t1 c (conj F1 P1) Hc F2) as S2. cbv zeta in S2. fold t2 in S2.
  set (e1 := if Bleb (Babs b) (Babs a') then fadd (fsub a' t1) b else fadd (fsub b t1) a') in *.
  set (e2 := if Bleb (Babs c) (Babs t1) then fadd (fsub t1 t2) c else fadd (fsub c t2) t1) in *.
  set (c1 := if Bleb (Babs b) (Babs a') then fadd f0 (fadd (fsub a' t1) b) else fadd f0 (fadd (fsub b t1) a')).
  assert (Ec1 : c1 = fadd f0 e1) by (unfold c1, e1; destruct (Bleb (Babs b) (Babs a')); reflexivity).
  set (c2 := if Bleb (Babs c) (Babs t1) then fadd c1 (fadd (fsub t1 t2) c) else fadd c1 (fadd (fsub c t2) t1)).
  assert (Ec2 : c2 = fadd c1 e2) by (unfold c2, e2; destruct (Bleb (Babs c) (Babs t1)); reflexivity).
  destruct S1 as [V1 G1], S2 as [V2 G2].
  (* bounds on the errors *)
  pose proof (add_err (B2R a') (B2R b) (B2R_fmt _) (B2R_fmt _) (proj2 Ha') (proj2 Hb)) as K1. rewrite <- R1, <- V1 in K1.
  pose proof (add_err (B2R t1) (B2R c) (B2R_fmt _) (B2R_fmt _) P1 (proj2 Hc)) as K2. rewrite <- R2, <- V2 in K2.
  pose proof (proj2 Ha') as Pa'. pose proof (proj2 Hb) as Pb. pose proof (proj2 Hc) as Pc.
  assert (K1' : Rabs (B2R e1) <= B2R t2 / 8) by (unfold Rdiv in *; lra).
  assert (K2' : Rabs (B2R e2) <= B2R t2 / 8) by (unfold Rdiv in *; lra).
  (* c1 *)
  assert (C1 : B2R c1 = B2R e1 /\ is_finite c1 = true).
  { rewrite Ec1. destruct (fadd_cases f0 e1 eq_refl G1) as [(L & E & F)|(L & _)];
    change (B2R f0) with 0 in *; rewrite Rplus_0_l, (rnd_id _ (B2R_fmt e1)) in *; [auto|].
    exfalso. pose proof (abs_B2R_lt_emax 53 1024 e1). lra. }
  destruct C1 as [C1 C1f].
  assert (B12 : Rabs (B2R e1 + B2R e2) <= B2R t2 / 4).
  { eapply Rle_trans; [apply Rabs_triang|]. lra. }
  assert (C2 : B2R c2 = rnd (B2R e1 + B2R e2) /\ is_finite c2 = true).
  { rewrite Ec2. destruct (fadd_cases c1 e2 C1f G2) as [(L & E & F)|(L & _)]; rewrite C1 in *; [auto|].
    exfalso. assert (Rabs (rnd (B2R e1 + B2R e2)) < bpow radix2 1024); [|lra].
    apply (small_bound _ t2); [lra|exact F2]. }
  destruct C2 as [C2 C2f].
  assert (Bc2 : Rabs (B2R c2) <= B2R t2 / 2).
  { rewrite C2. eapply Rle_trans; [apply rnd_le_2|]. lra. }
  assert (Bc2' := Bc2). apply Rabs_le_inv in Bc2'.
  assert (Low : forall x : f64, 0 <= B2R x -> B2R x <= B2R t2 -> B2R x <= B2R a + B2R b + B2R c -> B2R x <= B2R t2 + B2R c2).
  { intros x Px Lx Sx. destruct (Rle_lt_dec (B2R t2 / 2) (B2R x)) as [h|h]; [|lra].
    assert (fmt (B2R x - B2R t2)).
    { apply (sterbenz radix2 fx); try apply B2R_fmt. lra. }
    assert (B2R x - B2R t2 <= B2R c2); [|lra].
    rewrite C2. rewrite <- (rnd_id _ H). apply rnd_mono. lra. }
  cbv zeta.
  destruct (negb (Beqb c2 f0) && is_finite c2) eqn:B.
  - destruct (fadd_cases t2 c2 F2 C2f) as [(L & E & F)|(L & E & S)].
    + right. assert (D : forall x : f64, 0 <= B2R x -> B2R x <= B2R t2 -> B2R x <= B2R a + B2R b + B2R c -> B2R x <= B2R (fadd t2 c2)).
      { intros x P1' P2' P3'. rewrite E. rewrite <- (rnd_id (B2R x)) by apply B2R_fmt. apply rnd_mono. now apply Low. }
      split.
      * split; [exact F|]. rewrite E. rewrite <- rnd_0. apply rnd_mono. lra.
      * intros x [<-|[<-|[<-|[]]]]; apply D; try apply Ha; try apply Hb; try apply Hc; lra.
    + left. rewrite E. f_equal. destruct (Bsign t2) eqn:St; [|reflexivity].
      pose proof (sign_true_nonpos t2 St F2). assert (B2R t2 = 0) by lra.
      assert (B2R c2 = 0) by lra. rewrite H0, H1, Rplus_0_r, rnd_0, Rabs_R0 in L.
      pose proof (bpow_gt_0 radix2 1024). lra.
  - right. split; [split; [exact F2|exact P2]|]. intros x [<-|[<-|[<-|[]]]]; lra.
Qed.

Lemma py_sum_dom v a b c : fin_nn a -> fin_nn b -> fin_nn c -> dominates (py_sum v a b c) [a; b; c].
Proof. destruct v; [apply sum_comp_dom|apply sum_plain_dom]. Qed.

Definition in01 (x : f64) : Prop := is_finite x = true /\ 0 <= B2R x <= 1.

Lemma fdiv_in01 x s : fin_nn x -> dominates s [x] -> Beqb s f0 = false -> in01 (fdiv x s).
Proof.
  intros [Fx Px] [->|[[Fs Ps] D]] Hz.
  - unfold fdiv, in01. destruct x as [sx|sx| |sx m e H]; try discriminate; cbn; split; try reflexivity; lra.
  - assert (Hx : B2R x <= B2R s) by (apply D; now left).
    rewrite Beqb_correct in Hz by (exact Fs || reflexivity).
    assert (Hne : B2R s <> 0). { intro E. rewrite E in Hz. change (B2R f0) with 0 in Hz. rewrite Req_bool_true in Hz by reflexivity. discriminate. }
    assert (Q : 0 <= B2R x / B2R s <= 1).
    { split; [apply Rmult_le_pos; [exact Px|left; apply Rinv_0_lt_compat; lra]|].
      apply Rmult_le_reg_r with (B2R s); [lra|]. unfold Rdiv; rewrite Rmult_assoc, Rinv_l; lra. }
    assert (Q' : 0 <= rnd (B2R x / B2R s) <= 1).
    { split; [rewrite <- rnd_0|rewrite <- (rnd_id 1 fmt_1)]; apply rnd_mono; lra. }
    pose proof (Bdiv_correct 53 1024 Hprec64 Hmax64 mode_NE x s Hne) as H.
    rewrite fexp64 in H. change (round_mode mode_NE) with ZnearestE in H.
    rewrite Rlt_bool_true in H.
    + destruct H as (E & F & _). unfold in01, fdiv. rewrite E, F. auto.
    + rewrite Rabs_pos_eq by lra. apply Rle_lt_trans with (bpow radix2 0); [cbn; lra|]. apply bpow_lt; lia.
Qed.

Lemma dominates_in s l x : dominates s l -> In x l -> dominates s [x].
Proof. intros [H|[H1 H2]] Hi; [now left|right; split; [exact H1|]]. intros y [<-|[]]; auto. Qed.

Lemma fuel64_range v D T H D' T' H' w : fin_nn D -> fin_nn T -> fin_nn H ->
  fuel_composition64 v D T H = Ok ((D', T', H'), w) -> in01 D' /\ in01 T' /\ in01 H'.
Proof.
  intros HD HT HH. unfold fuel_composition64. pose proof (py_sum_dom v D T H HD HT HH) as Dm.
  set (s := py_sum v D T H) in *.
  destruct (Beqb s f1) eqn:E1; cbn [negb].
  - intro E. injection E as <- <- <- _.
    destruct Dm as [Di|[[Fs Ps] Dm]]; [rewrite Di in E1; discriminate|].
    rewrite Beqb_correct in E1 by (exact Fs || reflexivity).
    assert (B2R s = 1).
    { destruct (Req_bool_spec (B2R s) (B2R f1)) as [h|h]; [|discriminate]. rewrite h. apply Bone_correct. }
    assert (K : forall x, fin_nn x -> In x [D; T; H] -> in01 x).
    { intros x [Fx Px] Hi. split; [exact Fx|]. specialize (Dm x Hi). lra. }
    repeat split; apply K; cbn; auto.
  - destruct (Beqb s f0) eqn:E0; [discriminate|]. intro E. injection E as <- <- <- _.
    repeat split; apply fdiv_in01; auto; eapply dominates_in; try exact Dm; cbn; auto.
Qed.
