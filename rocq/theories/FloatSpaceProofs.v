(** Lemmas for C95. *)
From Coq Require Import ZArith Bool Reals Lra Lia List.
From Flocq Require Import Core.Core Plus_error Mult_error Relative IEEE754.BinarySingleNaN.
From Verif Require Import Base FloatComp FloatCompProofs FloatCompAcc FloatSource SpecFloatSource FloatSourceProofs FloatSpace SpecFloatSpace.
Open Scope R_scope.
Local Instance p53sp : Prec_gt_0 53 := eq_refl.
Local Notation bp := (bpow radix2).

(** ** Exact remainder *)
Lemma normalize_exact (m e : Z) s : (Z.abs m < 2 ^ 53)%Z -> (-1074 <= e <= 971)%Z ->
  let x := binary_normalize 53 1024 Hprec64 Hmax64 mode_NE m e s in is_finite x = true /\ B2R x = IZR m * bp e.
Proof.
  intros Hm He x. pose proof (binary_normalize_correct 53 1024 Hprec64 Hmax64 mode_NE m e s) as H. cbv zeta in H. rewrite fexp64 in H. change (round_mode mode_NE) with ZnearestE in H.
  assert (F : fmt (F2R (Float radix2 m e))). { apply generic_format_FLT. exists (Float radix2 m e); [reflexivity|exact Hm|cbn; lia]. }
  rewrite (rnd_id _ F) in H. rewrite Rlt_bool_true in H.
  - destruct H as (E & Fi & _). fold x in E, Fi. split; [exact Fi|]. rewrite E. reflexivity.
  - unfold F2R. cbn [Fnum Fexp]. rewrite Rabs_mult, (Rabs_pos_eq (bp e)) by apply bpow_ge_0. rewrite <- abs_IZR.
    apply Rlt_le_trans with (bp 53 * bp e). { apply Rmult_lt_compat_r; [apply bpow_gt_0|]. change (bp 53) with (IZR (2 ^ 53)). now apply IZR_lt. }
    rewrite <- bpow_plus. apply bpow_le. lia.
Qed.
Lemma bounded_facts m e : SpecFloat.bounded 53 1024 m e = true -> (Zpos m < 2 ^ 53)%Z /\ (-1074 <= e <= 971)%Z.
Proof.
  intro H. unfold SpecFloat.bounded in H. apply andb_prop in H. destruct H as [H1 H2]. apply Zle_bool_imp_le in H2. unfold SpecFloat.canonical_mantissa in H1. apply Zeq_bool_eq in H1. rewrite fexp64 in H1. unfold FLT_exp in H1.
  rewrite Digits.Zpos_digits2_pos in H1. split; [|lia]. change (2 ^ 53)%Z with (Zpower radix2 53). apply (Digits.Zpower_gt_Zdigits radix2 53 (Zpos m)). lia.
Qed.
Lemma f64_of_Z_exact n : (Z.abs n < 2 ^ 53)%Z -> is_finite (f64_of_Z n) = true /\ B2R (f64_of_Z n) = IZR n.
Proof. intro H. destruct (normalize_exact n 0 false H) as [A B]; [lia|]. split; [exact A|]. unfold f64_of_Z. rewrite B. cbn. ring. Qed.

(** fmod by a positive number: the quotient is cut towards zero. *)
Lemma fmod_exact x y : is_finite x = true -> is_finite y = true -> 0 < B2R y ->
  exists q : Z, is_finite (fmod64 x y) = true /\ B2R (fmod64 x y) = B2R x - IZR q * B2R y /\
    (0 <= B2R x -> 0 <= B2R (fmod64 x y) < B2R y) /\ (B2R x <= 0 -> - B2R y < B2R (fmod64 x y) <= 0).
Proof.
  intros Fx Fy Py. destruct y as [sy|sy| |sy my ey By]; try discriminate Fy; [cbn in Py; lra|].
  destruct x as [sx|sx| |sx mx ex Bx]; try discriminate Fx. { exists 0%Z. cbn -[B2R]. cbn in Py |- *. split; [reflexivity|]. cbn in *. lra. }
  assert (St : sy = false). { destruct sy; [|reflexivity]. exfalso. cbn in Py. pose proof (F2R_lt_0 radix2 (Float radix2 (Zneg my) ey) ltac:(reflexivity)). lra. }
  subst sy. cbn [fmod64]. set (e := Z.min ex ey). destruct (bounded_facts _ _ Bx) as [Mx Ex]. destruct (bounded_facts _ _ By) as [My Ey].
  set (a := (Zpos mx * 2 ^ (ex - e))%Z). set (b := (Zpos my * 2 ^ (ey - e))%Z).
  assert (P2 : forall z, (0 <= z)%Z -> (0 < 2 ^ z)%Z) by (intros; apply Z.pow_pos_nonneg; lia).
  assert (Ha : (0 < a)%Z) by (unfold a; apply Z.mul_pos_pos; [lia|apply P2; lia]). assert (Hb : (0 < b)%Z) by (unfold b; apply Z.mul_pos_pos; [lia|apply P2; lia]).
  assert (V : forall m ee, (e <= ee)%Z -> IZR (Zpos m * 2 ^ (ee - e)) * bp e = IZR (Zpos m) * bp ee).
  { intros m ee L. rewrite mult_IZR. change 2%Z with (radix_val radix2). rewrite (IZR_Zpower radix2 (ee - e)) by lia. rewrite Rmult_assoc, <- bpow_plus. do 2 f_equal. lia. }
  assert (Vx : B2R (B754_finite sx mx ex Bx : f64) = (if sx then - 1 else 1) * (IZR a * bp e)).
  { unfold a; rewrite V by lia. destruct sx; cbn -[bpow]; unfold F2R; cbn [Fnum Fexp]; [change (Z.neg mx) with (- Z.pos mx)%Z; rewrite opp_IZR|]; ring. }
  assert (Vy : B2R (B754_finite false my ey By : f64) = IZR b * bp e) by (unfold b; rewrite V by lia; reflexivity).
  rewrite Vx, Vy. pose proof (Z.rem_bound_pos a b ltac:(lia) Hb) as Rb. pose proof (Z.quot_rem' a b) as Q.
  set (r := Z.rem a b) in *.
  exists (if sx then - (a ÷ b) else a ÷ b)%Z. pose proof (bpow_gt_0 radix2 e) as B0.
  assert (E : IZR a * bp e - IZR (a ÷ b) * (IZR b * bp e) = IZR r * bp e). { rewrite Q at 1. rewrite plus_IZR, mult_IZR. ring. }
  assert (E' : (if sx then - 1 else 1) * (IZR a * bp e) - IZR (if sx then - (a ÷ b) else a ÷ b) * (IZR b * bp e) = (if sx then - 1 else 1) * (IZR r * bp e)).
  { rewrite <- E. destruct sx; rewrite ?opp_IZR; ring. }
  rewrite E'. assert (L : 0 <= IZR r * bp e < IZR b * bp e).
  { clear - Rb B0. destruct Rb as [Rb1 Rb2]. clearbody r b e. split; [apply Rmult_le_pos; [apply IZR_le; exact Rb1|lra]|]. apply Rmult_lt_compat_r; [exact B0|]. apply IZR_lt. exact Rb2. }
  assert (La : 0 < IZR a * bp e). { clear - Ha B0. clearbody a e. apply Rmult_lt_0_compat; [now apply IZR_lt|exact B0]. }
  assert (Signs : forall v, v = (if sx then - 1 else 1) * (IZR r * bp e) -> (0 <= (if sx then - 1 else 1) * (IZR a * bp e) -> 0 <= v < IZR b * bp e) /\ ((if sx then - 1 else 1) * (IZR a * bp e) <= 0 -> - (IZR b * bp e) < v <= 0)).
  { intros v ->. destruct sx; lra. }
  destruct (Z.eqb_spec r 0) as [R0|R0].
  - rewrite R0 in L, Signs |- *. clear - L Signs. cbn [is_finite B2R]. rewrite Rmult_0_l, Rmult_0_r in *. split; [reflexivity|]. split; [reflexivity|]. now apply Signs.
  - assert (R53 : (Z.abs r < 2 ^ 53)%Z).
    { rewrite Z.abs_eq by lia. destruct (Z.le_ge_cases ex ey) as [C|C].
      - assert (r <= a)%Z by (pose proof (Z.rem_le a b); unfold r; lia). assert (a = Zpos mx) by (unfold a, e; replace (ex - Z.min ex ey)%Z with 0%Z by lia; lia). lia.
      - assert (b = Zpos my) by (unfold b, e; replace (ey - Z.min ex ey)%Z with 0%Z by lia; lia). lia. }
    destruct (normalize_exact (if sx then Z.opp r else r) e sx) as [F1 F2]; [destruct sx; [now rewrite Z.abs_opp|exact R53]|unfold e; lia|]. rewrite F1, F2. split; [reflexivity|].
    assert (X : IZR (if sx then (- r)%Z else r) * bp e = (if sx then - 1 else 1) * (IZR r * bp e)) by (destruct sx; rewrite ?opp_IZR; ring). split; [exact X|now apply Signs].
Qed.
Lemma not_nan (x : f64) : is_finite x = true -> is_nan x = false.
Proof. now destruct x. Qed.

(** ** Ceiling *)
Lemma ceil_exact (x : f64) : is_finite x = true -> Rabs (B2R x) <= bp 60 -> exists n, ceil64 x = Some n /\ IZR n - 1 < B2R x <= IZR n.
Proof.
  intros F B. destruct x as [s|s| |s m e Bd]; try discriminate F. { exists 0%Z. cbn. split; [reflexivity|lra]. }
  unfold ceil64. set (v := if s then Z.neg m else Z.pos m). assert (V : B2R (B754_finite s m e Bd : f64) = IZR v * bp e) by (destruct s; reflexivity). rewrite V in *.
  set (c := if (0 <=? e)%Z then (v * 2 ^ e)%Z else (- (- v / 2 ^ (- e)))%Z).
  assert (C : IZR c - 1 < IZR v * bp e <= IZR c).
  { unfold c. destruct (Z.leb_spec 0 e) as [L|L].
    - rewrite mult_IZR. change 2%Z with (radix_val radix2). rewrite (IZR_Zpower radix2 e) by lia. lra.
    - assert (P : (0 < 2 ^ (- e))%Z) by (apply Z.pow_pos_nonneg; lia). pose proof (Z.div_mod (- v) (2 ^ (- e)) ltac:(lia)) as D. pose proof (Z.mod_pos_bound (- v) (2 ^ (- e)) P) as D2.
      set (d := (- v / 2 ^ (- e))%Z) in *. set (mm := (- v mod 2 ^ (- e))%Z) in *. rewrite opp_IZR.
      assert (B2 : IZR (2 ^ (- e)) = bp (- e)) by (apply (IZR_Zpower radix2 (- e)); lia).
      assert (E1 : bp e * bp (- e) = 1) by (rewrite <- bpow_plus; replace (e + - e)%Z with 0%Z by lia; reflexivity). pose proof (bpow_gt_0 radix2 e) as Be. pose proof (bpow_gt_0 radix2 (- e)) as Be'.
      assert (VV : IZR v = - (bp (- e) * IZR d + IZR mm)). { replace v with (- (2 ^ (- e) * d + mm))%Z by lia. rewrite opp_IZR, plus_IZR, mult_IZR, B2. reflexivity. }
      assert (M1 : 0 <= IZR mm < bp (- e)) by (rewrite <- B2; split; [now apply IZR_le|now apply IZR_lt]).
      assert (VE : IZR v * bp e = - IZR d - IZR mm * bp e). { rewrite VV. replace (- (bp (- e) * IZR d + IZR mm) * bp e) with (- (IZR d * (bp e * bp (- e))) - IZR mm * bp e) by ring. rewrite E1. ring. }
      rewrite VE. assert (0 <= IZR mm * bp e) by (apply Rmult_le_pos; lra). assert (IZR mm * bp e < bp (- e) * bp e) by (apply Rmult_lt_compat_r; lra). rewrite (Rmult_comm (bp (- e))), E1 in H0. lra. }
  exists c. split; [|exact C]. destruct (Z.leb_spec (Z.abs c) (2 ^ 63)) as [L|L]; [reflexivity|]. exfalso.
  apply IZR_lt in L. rewrite abs_IZR in L. apply Rabs_le_inv in B. change (IZR (2 ^ 63)) with (bp 63) in L. assert (2 * bp 60 <= bp 63) by (change 2 with (bp 1); rewrite <- bpow_plus; apply bpow_le; lia). assert (1 <= bp 60) by (change 1 with (bp 0); apply bpow_le; lia).
  assert (Rabs (IZR c) <= 2 * bp 60) by (apply Rabs_le; lra). lra.
Qed.

(** ** Least and greatest coordinate *)
Lemma pick_fold (lt : f64 -> f64 -> bool) (le : R -> R -> Prop) r a :
  (forall x, le x x) -> (forall x y z, le x y -> le y z -> le x z) ->
  (forall x m, is_finite x = true -> is_finite m = true -> lt x m = true -> le (B2R x) (B2R m)) ->
  (forall x m, is_finite x = true -> is_finite m = true -> lt x m = false -> le (B2R m) (B2R x)) ->
  is_finite a = true -> Forall (fun x => is_finite x = true) r ->
  let m := fold_left (fun m x => if is_nan m then m else if is_nan x then x else if lt x m then x else m) r a in
  In m (a :: r) /\ forall x, In x (a :: r) -> le (B2R m) (B2R x).
Proof.
  intros Hr Ht H1 H2 Fa Fr. revert a Fa. induction Fr as [|b r Fb Fr IH]; intros a Fa m.
  - split; [now left|]. intros x [<-|[]]. apply Hr.
  - unfold m. clear m. cbn [fold_left]. rewrite (not_nan a Fa), (not_nan b Fb). destruct (lt b a) eqn:L.
    + destruct (IH b Fb) as [I1 I2]. split; [now right|]. intros x [<-|Hx]; [|now apply I2]. eapply Ht; [apply I2; now left|now apply H1].
    + destruct (IH a Fa) as [I1 I2]. split; [destruct I1; [now left|right; now right]|]. intros x [<-|[<-|Hx]]; [apply I2; now left| |apply I2; now right]. eapply Ht; [apply I2; now left|now apply H2].
Qed.
Lemma np_min_ok l : l <> [] -> Forall (fun x => is_finite x = true) l -> exists m, np_min64 l = Ok m /\ In m l /\ forall x, In x l -> B2R m <= B2R x.
Proof.
  intros N F. destruct l as [|a r]; [contradiction|]. inversion F; subst. eexists. split; [reflexivity|].
  apply (pick_fold Bltb Rle r a); auto; [intros; lra|intros; lra| |]; intros x m Fx Fm; rewrite Bltb_correct by assumption; destruct (Rlt_bool_spec (B2R x) (B2R m)); intros; try discriminate; lra.
Qed.
Lemma np_max_ok l : l <> [] -> Forall (fun x => is_finite x = true) l -> exists m, np_max64 l = Ok m /\ In m l /\ forall x, In x l -> B2R x <= B2R m.
Proof.
  intros N F. destruct l as [|a r]; [contradiction|]. inversion F; subst. eexists. split; [reflexivity|].
  apply (pick_fold (fun x m => Bltb m x) (fun x y => y <= x) r a); auto; [intros; lra|intros; lra| |]; intros x m Fx Fm; rewrite Bltb_correct by assumption; destruct (Rlt_bool_spec (B2R m) (B2R x)); intros; try discriminate; lra.
Qed.

(** ** Rounding errors against a scale M *)
Definition scale (M : R) : Prop := bp (-200) <= M <= bp 200.
Lemma uu_bp : uu = bp (-53). Proof. reflexivity. Qed.
Lemma rnd_err M K x : scale M -> 1 <= K <= bp 30 -> Rabs x <= K * M -> Rabs (rnd x - x) <= K * (uu * M) /\ Rabs (rnd x) < bp 1024.
Proof.
  intros [M1 M2] [K1 K2] H. pose proof (bpow_gt_0 radix2 (-200)) as P. pose proof uu_small as U.
  assert (E : Rabs (rnd x - x) <= K * (uu * M)).
  { destruct (Rle_or_lt (bp (-1022)) (Rabs x)) as [L|L].
    - pose proof (relative_error_N_FLT radix2 (-1074) 53 eq_refl (fun z => negb (Z.even z)) x L) as E.
      replace (/ 2 * bpow radix2 (- (53) + 1)) with uu in E by (rewrite <- u_ro_uu; reflexivity). eapply Rle_trans; [exact E|]. replace (K * (uu * M)) with (uu * (K * M)) by ring. apply Rmult_le_compat_l; lra.
    - pose proof (error_le_half_ulp radix2 fx (fun z => negb (Z.even z)) x) as E. rewrite (ulp_FLT_small radix2 (-1074) 53 x) in E by (eapply Rlt_le_trans; [exact L|apply bpow_le; lia]).
      eapply Rle_trans; [exact E|]. apply Rle_trans with (bp (-1075)). { replace (/ 2) with (bp (-1)) by reflexivity. rewrite <- bpow_plus. apply bpow_le. lia. }
      apply Rle_trans with (1 * (uu * bp (-200))). { rewrite uu_bp, Rmult_1_l, <- bpow_plus. apply bpow_le. lia. }
      apply Rmult_le_compat; [lra|apply Rmult_le_pos; lra|exact K1|apply Rmult_le_compat_l; lra]. }
  split; [exact E|]. assert (KM : K * M <= bp 230). { replace (bp 230) with (bp 30 * bp 200) by apply bp_mul. apply Rmult_le_compat; lra. }
  assert (UM : K * (uu * M) <= K * M). { apply Rmult_le_compat_l; [lra|]. nra. }
  apply Rle_lt_trans with (bp 231); [|apply bpow_lt; lia]. replace (bp 231) with (bp 1 * bp 230) by apply bp_mul. change (bp 1) with 2. replace (rnd x) with ((rnd x - x) + x) by ring. eapply Rle_trans; [apply Rabs_triang|]. lra.
Qed.
Definition about (M K : R) (f : f64) (x : R) : Prop := is_finite f = true /\ Rabs (B2R f - x) <= K * (uu * M).
Lemma fadd_about M K x y : scale M -> 1 <= K <= bp 30 -> is_finite x = true -> is_finite y = true -> Rabs (B2R x + B2R y) <= K * M -> about M K (fadd x y) (B2R x + B2R y).
Proof.
  intros HM HK Fx Fy H. destruct (rnd_err M K _ HM HK H) as [E L]. destruct (fadd_cases x y Fx Fy) as [(_ & E' & F)|(L' & _)]; [|lra]. split; [exact F|]. now rewrite E'.
Qed.
Lemma fsub_about M K x y : scale M -> 1 <= K <= bp 30 -> is_finite x = true -> is_finite y = true -> Rabs (B2R x - B2R y) <= K * M -> about M K (fsub x y) (B2R x - B2R y).
Proof.
  intros HM HK Fx Fy H. destruct (rnd_err M K _ HM HK H) as [E L]. destruct (fsub_cases x y Fx Fy L) as [E' F]. split; [exact F|]. now rewrite E'.
Qed.
Lemma fmul_about M K x y : scale M -> 1 <= K <= bp 30 -> is_finite x = true -> is_finite y = true -> Rabs (B2R x * B2R y) <= K * M -> about M K (fmul x y) (B2R x * B2R y).
Proof.
  intros HM HK Fx Fy H. destruct (rnd_err M K _ HM HK H) as [E L]. pose proof (Bmult_correct 53 1024 Hprec64 Hmax64 mode_NE x y) as C. rewrite fexp64 in C. change (round_mode mode_NE) with ZnearestE in C.
  rewrite Rlt_bool_true in C by exact L. destruct C as (E' & F & _). rewrite Fx, Fy in F. split; [exact F|]. unfold fmul. now rewrite E'.
Qed.
Lemma fdiv_about M K x y : scale M -> 1 <= K <= bp 30 -> is_finite x = true -> is_finite y = true -> B2R y <> 0 -> Rabs (B2R x / B2R y) <= K * M -> about M K (fdiv x y) (B2R x / B2R y).
Proof.
  intros HM HK Fx Fy N H. destruct (rnd_err M K _ HM HK H) as [E L]. pose proof (Bdiv_correct 53 1024 Hprec64 Hmax64 mode_NE x y N) as C. rewrite fexp64 in C. change (round_mode mode_NE) with ZnearestE in C.
  rewrite Rlt_bool_true in C by exact L. destruct C as (E' & F & _). rewrite Fx in F. split; [exact F|]. unfold fdiv. now rewrite E'.
Qed.
Lemma fma_about M K x y z : scale M -> 1 <= K <= bp 30 -> is_finite x = true -> is_finite y = true -> is_finite z = true -> Rabs (B2R x * B2R y + B2R z) <= K * M ->
  about M K (ffma x y z) (B2R x * B2R y + B2R z).
Proof.
  intros HM HK Fx Fy Fz H. destruct (rnd_err M K _ HM HK H) as [E L]. pose proof (Bfma_correct 53 1024 Hprec64 Hmax64 mode_NE x y z Fx Fy Fz) as C. cbv zeta in C. rewrite fexp64 in C. change (round_mode mode_NE) with ZnearestE in C.
  rewrite Rlt_bool_true in C by exact L. destruct C as (E' & F & _). split; [exact F|]. unfold ffma. now rewrite E'.
Qed.
(** Doubling and halving are exact. *)
Lemma half_exact h : is_finite h = true -> bp (-300) <= B2R h <= bp 300 -> is_finite (fmul f_half h) = true /\ B2R (fmul f_half h) = B2R h / 2.
Proof.
  intros F H. destruct (normalize_exact 1 (-1) false) as [F2 V2]; [lia|lia|]. fold f_half in F2, V2. change (bp (-1)) with (/ 2) in V2.
  pose proof (Bmult_correct 53 1024 Hprec64 Hmax64 mode_NE f_half h) as C. rewrite fexp64 in C. change (round_mode mode_NE) with ZnearestE in C. rewrite V2 in C.
  assert (G : fmt (1 * / 2 * B2R h)). { rewrite Rmult_1_l, Rmult_comm. replace (/ 2) with (bp (-1)) by reflexivity. apply mult_bpow_exact_FLT; [apply B2R_fmt|].
    pose proof (mag_ge_bpow radix2 (B2R h) (-299)) as G. rewrite Rabs_pos_eq in G by (pose proof (bpow_gt_0 radix2 (-300)); lra). specialize (G ltac:(apply H)). lia. }
  rewrite (rnd_id _ G) in C. assert (0 < bp (-300)) by apply bpow_gt_0. assert (bp 300 < bp 1024) by (apply bpow_lt; lia).
  rewrite Rlt_bool_true in C by (rewrite Rabs_pos_eq; lra). destruct C as (E & Fi & _). rewrite F2, F in Fi. split; [exact Fi|]. unfold fmul. rewrite E. lra.
Qed.
Lemma double_exact h : is_finite h = true -> bp (-300) <= B2R h <= bp 300 -> is_finite (fmul f2 h) = true /\ B2R (fmul f2 h) = 2 * B2R h.
Proof.
  intros F H. destruct (f64_of_Z_exact 2) as [F2 V2]; [lia|]. fold f2 in F2, V2.
  pose proof (Bmult_correct 53 1024 Hprec64 Hmax64 mode_NE f2 h) as C. rewrite fexp64 in C. change (round_mode mode_NE) with ZnearestE in C. rewrite V2 in C.
  assert (G : fmt (2 * B2R h)). { rewrite Rmult_comm. change 2 with (bp 1). apply mult_bpow_pos_exact_FLT; [apply B2R_fmt|lia]. }
  rewrite (rnd_id _ G) in C. assert (0 < bp (-300)) by apply bpow_gt_0. assert (2 * bp 300 < bp 1024) by (change 2 with (bp 1); rewrite <- bpow_plus; apply bpow_lt; lia).
  rewrite Rlt_bool_true in C by (rewrite Rabs_pos_eq; lra). destruct C as (E & Fi & _). rewrite F2, F in Fi. split; [exact Fi|]. unfold fmul. now rewrite E.
Qed.
(** The remainder by a positive number: exact, or rounded once if the number is negative. *)
Lemma remainder_about M x y : scale M -> is_finite x = true -> is_finite y = true -> 0 < B2R y <= M ->
  exists q : Z, is_finite (remainder64 x y) = true /\ Rabs (B2R (remainder64 x y) - (B2R x - IZR q * B2R y)) <= uu * M /\
    0 <= B2R x - IZR q * B2R y < B2R y /\ 0 <= B2R (remainder64 x y) <= B2R y.
Proof.
  intros SM Fx Fy [Py Ly]. destruct (fmod_exact x y Fx Fy Py) as (q & F & V & L1 & L2). unfold remainder64. cbv zeta. set (m := fmod64 x y) in *.
  assert (UM : 0 <= uu * M) by (pose proof uu_small; apply Rmult_le_pos; lra).
  rewrite (not_nan y Fy), (not_nan m F). rewrite !Beqb_correct by (assumption || reflexivity). change (B2R f0) with 0. rewrite (Req_bool_false (B2R y) 0) by lra. cbn [orb].
  destruct (Req_bool_spec (B2R m) 0) as [Z|Z].
  - exists q. cbn [is_finite B2R]. rewrite <- V, Z, Rminus_0_r, Rabs_R0. split; [reflexivity|]. split; [exact UM|]. lra.
  - rewrite !Bltb_correct by (assumption || reflexivity). change (B2R f0) with 0. rewrite (Rlt_bool_false (B2R y)) by lra. destruct (Rlt_bool_spec (B2R m) 0) as [N|N].
    + cbn [Bool.eqb negb]. assert (X0 : B2R x <= 0) by (destruct (Rle_or_lt (B2R x) 0) as [X|X]; [exact X|exfalso; specialize (L1 ltac:(lra)); lra]). specialize (L2 X0).
      destruct (fadd_about M 1 m y SM ltac:(change (bp 30) with 1073741824; lra) F Fy) as [F' E]. { apply Rabs_le. lra. }
      exists (q - 1)%Z. rewrite minus_IZR. split; [exact F'|]. replace (B2R x - (IZR q - 1) * B2R y) with (B2R m + B2R y) by (rewrite V; ring). rewrite Rmult_1_l in E. split; [exact E|]. split; [lra|].
      destruct (fadd_cases m y F Fy) as [(_ & E' & _)|(_ & E' & _)]; [|rewrite E' in F'; discriminate]. rewrite E'. split.
      * rewrite <- rnd_0. apply rnd_mono. lra.
      * apply Rle_trans with (rnd (B2R y)); [apply rnd_mono; lra|right; apply rnd_id, B2R_fmt].
    + cbn [Bool.eqb negb]. assert (X0 : 0 <= B2R x) by (destruct (Rle_or_lt 0 (B2R x)) as [X|X]; [exact X|exfalso; specialize (L2 ltac:(lra)); lra]). specialize (L1 X0).
      exists q. rewrite <- V, Rminus_eq_0, Rabs_R0. split; [exact F|]. split; [exact UM|]. lra.
Qed.

(** ** One axis *)
Section Axis.
  Variables (fused : bool) (M : R) (coords : list f64) (o h : f64).
  Hypothesis HA : ordinary_axis M coords o h.
  Local Notation H := (B2R h).
  Local Notation U := (uu * M).

  Lemma axis_scale : scale M /\ 0 < M /\ 0 < H <= M /\ M <= 1048576 * H /\ 0 < U /\ 1024 * U <= M /\ 8589934592 * U <= H /\ bp (-300) <= H <= bp 300.
  Proof.
    destruct HA as ([M1 M2] & _ & [H1 H2] & _). rewrite !two_bpow in *. pose proof (bpow_gt_0 radix2 (-200)) as P. pose proof uu_small as Us.
    assert (Hm : M <= 1048576 * H). { replace (2 ^ 20) with 1048576 in H1 by ring. lra. }
    split; [now split|]. split; [lra|]. split; [lra|]. split; [exact Hm|]. split; [apply Rmult_lt_0_compat; lra|]. split; [nra|]. split.
    - assert (E : 8589934592 * uu * 1048576 = 1) by (rewrite uu_val; change (IZR (2 ^ 53)) with 9007199254740992; lra). assert (uu * M <= uu * (1048576 * H)) by (apply Rmult_le_compat_l; lra). nra.
    - split.
      + apply Rle_trans with (bp (-200) * bp (-20)). { rewrite bp_mul. apply bpow_le. lia. } change (bp (-20)) with (/ 1048576). lra.
      + apply Rle_trans with (bp 200); [lra|apply bpow_le; lia].
  Qed.
  Lemma K_ok K : 1 <= K <= 1000 -> 1 <= K <= bp 30.
  Proof. change (bp 30) with 1073741824. lra. Qed.

  (** What the computation of one axis gives. *)
  Lemma axis_run : exists lo hi (q : Z) n st, centers64 fused coords o h = Ok (map (fun i => fadd (arange_elt fused st h i) (fmul f_half h)) (seq 0 n)) /\
    In lo coords /\ In hi coords /\ (forall c, In c coords -> B2R lo <= B2R c <= B2R hi) /\
    is_finite st = true /\ Rabs (B2R st - (B2R o - IZR q * H - H / 2)) <= 9.61 * U /\ Rabs (B2R st) <= 3.61 * M /\
    B2R o - B2R lo + H - 9 * U <= IZR q * H <= B2R o - B2R lo + 2 * H + 9 * U /\
    (INR n - 1) * H - H / 1000000 <= B2R hi + 2 * H - (B2R o - IZR q * H - H / 2) <= INR n * H + H / 1000000.
  Proof.
    destruct axis_scale as (SM & PM & [PH HM] & MH & PU & UM & UH & HB). destruct HA as (_ & Fh & _ & Fo & Bo & Fc & Ne).
    assert (Ff : Forall (fun x => is_finite x = true) coords) by (eapply Forall_impl; [|exact Fc]; cbn; tauto).
    destruct (np_min_ok coords Ne Ff) as (lo & El & Il & Ll). destruct (np_max_ok coords Ne Ff) as (hi & Eh & Ih & Lh). rewrite Forall_forall in Fc.
    destruct (Fc lo Il) as [Flo Blo]. destruct (Fc hi Ih) as [Fhi Bhi]. apply Rabs_le_inv in Bo, Blo, Bhi. pose proof (Ll hi Ih) as Q1.
    unfold centers64. rewrite El, Eh. cbn [bind]. destruct (double_exact h Fh HB) as [F2 V2]. destruct (half_exact h Fh HB) as [Fhf Vh]. set (off := fmul f2 h) in *. set (hf := fmul f_half h) in *.
    destruct (fsub_about M 3 lo off SM (K_ok 3 ltac:(lra)) Flo F2) as [Fmn Emn]. { rewrite V2. apply Rabs_le. lra. } rewrite V2 in Emn. set (mn := fsub lo off) in *. apply Rabs_le_inv in Emn.
    destruct (fadd_about M 3 hi off SM (K_ok 3 ltac:(lra)) Fhi F2) as [Fmx Emx]. { rewrite V2. apply Rabs_le. lra. } rewrite V2 in Emx. set (mx := fadd hi off) in *. apply Rabs_le_inv in Emx.
    destruct (fsub_about M 4.01 o mn SM (K_ok 4.01 ltac:(lra)) Fo Fmn) as [Fa Ea]. { apply Rabs_le. lra. } set (a := fsub o mn) in *. apply Rabs_le_inv in Ea.
    destruct (remainder_about M a h SM Fa Fh (conj PH HM)) as (q & Fr & Vr & Lq & Lr). apply Rabs_le_inv in Vr. set (r := remainder64 a h) in *.
    destruct (fsub_about M 1 r hf SM (K_ok 1 ltac:(lra)) Fr Fhf) as [Fd Ed]. { rewrite Vh. apply Rabs_le. lra. } rewrite Vh in Ed. set (dx := fsub r hf) in *. apply Rabs_le_inv in Ed.
    destruct (fadd_about M 3.6 mn dx SM (K_ok 3.6 ltac:(lra)) Fmn Fd) as [Fst Est]. { apply Rabs_le. lra. } set (st := fadd mn dx) in *. apply Rabs_le_inv in Est.
    destruct (fsub_about M 6.62 mx st SM (K_ok 6.62 ltac:(lra)) Fmx Fst) as [Fe Ee]. { apply Rabs_le. lra. } set (d := fsub mx st) in *. apply Rabs_le_inv in Ee.
    assert (S1 : scale 1). { unfold scale. change 1 with (bp 0). split; apply bpow_le; lia. }
    assert (Dv : 0 <= B2R d / H <= 8388608). { split; [apply Rmult_le_pos; [lra|left; now apply Rinv_0_lt_compat]|]. apply (Rmult_le_reg_r H); [exact PH|]. unfold Rdiv. rewrite Rmult_assoc, Rinv_l by lra. lra. }
    destruct (fdiv_about 1 8388608 d h S1 ltac:(change (bp 30) with 1073741824; lra) Fe Fh ltac:(lra)) as [Fw Ew]. { rewrite Rabs_pos_eq; lra. } set (w := fdiv d h) in *.
    assert (E30 : 8388608 * (uu * 1) = / 1073741824). { rewrite uu_val. change (IZR (2 ^ 53)) with 9007199254740992. lra. } rewrite E30 in Ew. apply Rabs_le_inv in Ew.
    assert (WH : B2R d - H / 1073741824 <= B2R w * H <= B2R d + H / 1073741824).
    { assert (Q : B2R d = B2R d / H * H) by (field; lra). rewrite Q. split.
      - apply Rle_trans with ((B2R d / H - / 1073741824) * H); [right; field; lra|]. apply Rmult_le_compat_r; lra.
      - apply Rle_trans with ((B2R d / H + / 1073741824) * H); [|right; field; lra]. apply Rmult_le_compat_r; lra. }
    destruct (ceil_exact w Fw) as (n & En & Ln). { apply Rabs_le. assert (bp 24 <= bp 60) by (apply bpow_le; lia). change (bp 24) with 16777216 in *. lra. }
    assert (W0 : 0 < B2R w). { apply (Rmult_lt_reg_r H); [exact PH|]. lra. }
    assert (N0 : (0 < n)%Z) by (apply lt_IZR; lra). assert (Nn : INR (Z.to_nat n) = IZR n) by (rewrite INR_IZR_INZ, Z2Nat.id; [reflexivity|lia]).
    exists lo, hi, q, (Z.to_nat n), st.
    assert (Run : arange64 fused st mx h = Ok (map (arange_elt fused st h) (seq 0 (Z.to_nat n)))).
    { unfold arange64. cbv zeta. fold d. fold w. rewrite (Beqb_correct 53 1024 w f0 Fw eq_refl). change (B2R f0) with 0. rewrite Req_bool_false by lra. cbn [andb]. rewrite En. reflexivity. }
    rewrite Run. cbn [bind]. split; [now rewrite map_map|]. split; [exact Il|]. split; [exact Ih|]. split; [intros; split; [now apply Ll|now apply Lh]|]. split; [exact Fst|].
    split; [apply Rabs_le; lra|]. split; [apply Rabs_le; lra|]. split; [lra|]. rewrite Nn.
    assert (NH : B2R w * H <= IZR n * H) by (apply Rmult_le_compat_r; lra). assert (NH' : (IZR n - 1) * H <= B2R w * H) by (apply Rmult_le_compat_r; lra). lra.
  Qed.

  (** One element. *)
  Lemma axis_elt lo hi (q : Z) n st i : In lo coords -> In hi coords -> is_finite st = true -> Rabs (B2R st - (B2R o - IZR q * H - H / 2)) <= 9.61 * U -> Rabs (B2R st) <= 3.61 * M ->
    (INR n - 1) * H - H / 1000000 <= B2R hi + 2 * H - (B2R o - IZR q * H - H / 2) -> (i < n)%nat ->
    let c := fadd (arange_elt fused st h i) (fmul f_half h) in
    is_finite c = true /\ Rabs (B2R c - (B2R o + (INR i - IZR q) * H)) <= (8 * INR i + 48) * U /\ INR i <= 8388608.
  Proof.
    intros Il Ih Fst Est Bst Ln Li c. destruct axis_scale as (SM & PM & [PH HM] & MH & PU & UM & UH & HB). destruct HA as (_ & Fh & _ & Fo & Bo & Fc & _). rewrite Forall_forall in Fc.
    destruct (Fc hi Ih) as [Fhi Bhi]. apply Rabs_le_inv in Bo, Bhi, Est, Bst. destruct (half_exact h Fh HB) as [Fhf Vh]. set (hf := fmul f_half h) in *.
    pose proof (pos_INR i) as I0. assert (Ln' : INR i <= INR n - 1). { apply lt_INR in Li. assert (Li' : (S i <= n)%nat) by (apply INR_lt in Li; lia). apply le_INR in Li'. rewrite S_INR in Li'. lra. }
    assert (IH : INR i * H <= (INR n - 1) * H) by (apply Rmult_le_compat_r; lra).
    assert (IH' : INR i * H <= 6.63 * M) by lra. assert (IH0 : 0 <= INR i * H) by (apply Rmult_le_pos; lra).
    assert (IB : INR i <= 8388608). { apply (Rmult_le_reg_r H); [exact PH|]. lra. }
    assert (IU : INR i * U <= M / 1000). { apply Rle_trans with (8388608 * U); [apply Rmult_le_compat_r; lra|]. lra. } assert (IU0 : 0 <= INR i * U) by (apply Rmult_le_pos; lra).
    assert (El : exists K, is_finite (arange_elt fused st h i) = true /\ Rabs (B2R (arange_elt fused st h i) - (B2R o + (INR i - IZR q) * H - H / 2)) <= K /\ K = (26.8 * U + 5.63 * (INR i * U))).
    { exists (26.8 * U + 5.63 * (INR i * U)).
      destruct (fadd_about M 4.62 st h SM (K_ok 4.62 ltac:(lra)) Fst Fh) as [Fnx Enx]. { apply Rabs_le. lra. }
      destruct i as [|[|i]].
      - cbn [arange_elt]. cbn [INR] in *. split; [exact Fst|]. split; [apply Rabs_le; lra|reflexivity].
      - cbn [arange_elt]. apply Rabs_le_inv in Enx. split; [exact Fnx|]. change (INR 1) with 1 in *. split; [apply Rabs_le; lra|reflexivity].
      - cbn [arange_elt]. set (j := S (S i)) in *. set (nx := fadd st h) in *. apply Rabs_le_inv in Enx.
        destruct (fsub_about M 1.01 nx st SM (K_ok 1.01 ltac:(lra)) Fnx Fst) as [Fdl Edl]. { apply Rabs_le. lra. } set (dl := fsub nx st) in *. apply Rabs_le_inv in Edl.
        destruct (f64_of_Z_exact (Z.of_nat j)) as [Fj Vj]. { rewrite Z.abs_eq by lia. apply lt_IZR. rewrite <- INR_IZR_INZ. change (IZR (2 ^ 53)) with 9007199254740992. lra. }
        rewrite <- INR_IZR_INZ in Vj. set (fj := f64_of_Z (Z.of_nat j)) in *.
        assert (DL : - (5.63 * U) <= B2R dl - H <= 5.63 * U) by lra.
        assert (JD : Rabs (INR j * B2R dl - INR j * H) <= 5.63 * (INR j * U)). { replace (INR j * B2R dl - INR j * H) with (INR j * (B2R dl - H)) by ring. rewrite Rabs_mult, (Rabs_pos_eq (INR j)) by lra. apply Rle_trans with (INR j * (5.63 * U)); [apply Rmult_le_compat_l; [lra|apply Rabs_le; lra]|lra]. }
        apply Rabs_le_inv in JD.
        destruct fused.
        + destruct (fma_about M 10.4 fj dl st SM (K_ok 10.4 ltac:(lra)) Fj Fdl Fst) as [Ff Ef]. { rewrite Vj. apply Rabs_le. lra. } rewrite Vj in Ef. apply Rabs_le_inv in Ef. split; [exact Ff|]. split; [apply Rabs_le; lra|reflexivity].
        + destruct (fmul_about M 6.67 fj dl SM (K_ok 6.67 ltac:(lra)) Fj Fdl) as [Fm Em]. { rewrite Vj. apply Rabs_le. lra. } rewrite Vj in Em. apply Rabs_le_inv in Em. set (m := fmul fj dl) in *.
          destruct (fadd_about M 10.4 st m SM (K_ok 10.4 ltac:(lra)) Fst Fm) as [Ff Ef]. { apply Rabs_le. lra. } apply Rabs_le_inv in Ef. split; [exact Ff|]. split; [apply Rabs_le; lra|reflexivity]. }
    destruct El as (K & Fe & Ee & ->). set (e := arange_elt fused st h i) in *. apply Rabs_le_inv in Ee.
    destruct (fadd_about M 12 e hf SM (K_ok 12 ltac:(lra)) Fe Fhf) as [Fc' Ec]. { rewrite Vh. apply Rabs_le. lra. } rewrite Vh in Ec. fold c in Fc', Ec. apply Rabs_le_inv in Ec. split; [exact Fc'|]. split; [apply Rabs_le; lra|exact IB].
  Qed.

  Lemma axis_grid : exists cs, centers64 fused coords o h = Ok cs /\ on_grid M coords o h cs.
  Proof.
    destruct axis_run as (lo & hi & q & n & st & Run & Il & Ih & Lc & Fst & Est & Bst & Q & N). eexists. split; [exact Run|]. clear Run. exists q. set (cs := map _ (seq 0 n)).
    destruct axis_scale as (SM & PM & [PH HM] & MH & PU & UM & UH & HB).
    assert (E8 : forall i, (INR i + 6) * (M / 2 ^ 50) = (8 * INR i + 48) * U). { intro i. rewrite uu_val. change (IZR (2 ^ 53)) with 9007199254740992. replace (2 ^ 50) with 1125899906842624 by ring. lra. }
    assert (Nth : forall i c, nth_error cs i = Some c -> (i < n)%nat /\ is_finite c = true /\ Rabs (B2R c - (B2R o + (INR i - IZR q) * H)) <= (8 * INR i + 48) * U /\ INR i <= 8388608).
    { intros i c Hc. assert (Li : (i < n)%nat). { assert (X : nth_error cs i <> None) by congruence. apply nth_error_Some in X. unfold cs in X. now rewrite map_length, seq_length in X. }
      split; [exact Li|]. unfold cs in Hc. rewrite nth_error_map in Hc. assert (Sq : nth_error (seq 0 n) i = Some i). { rewrite (nth_error_nth' _ 0%nat) by (now rewrite seq_length). now rewrite seq_nth. } rewrite Sq in Hc. cbn [option_map] in Hc. injection Hc as <-.
      exact (axis_elt lo hi q n st i Il Ih Fst Est Bst (proj1 N) Li). }
    split; [|split; [|split]].
    - intros i c Hc. destruct (Nth i c Hc) as (_ & F & E & _). split; [exact F|]. now rewrite E8.
    - intros i j c d L Hc Hd. destruct (Nth i c Hc) as (_ & _ & Ei & Bi). destruct (Nth j d Hd) as (_ & _ & Ej & Bj). apply Rabs_le_inv in Ei, Ej.
      assert (L1 : INR i + 1 <= INR j) by (rewrite <- S_INR; apply le_INR; lia). assert (LH : (INR i + 1) * H <= INR j * H) by (apply Rmult_le_compat_r; lra).
      assert (I1 : INR i * U <= 8388608 * U) by (apply Rmult_le_compat_r; lra). assert (J1 : INR j * U <= 8388608 * U) by (apply Rmult_le_compat_r; lra). lra.
    - intros j a b Ha Hb [L1 L2]. pose proof (Lc a Ha) as La. pose proof (Lc b Hb) as Lb. set (z := (q + j)%Z). assert (Zv : IZR z = IZR q + IZR j) by (unfold z; apply plus_IZR).
      assert (Z0 : (0 <= z)%Z). { apply Z.lt_pred_le. apply lt_IZR. unfold Z.pred. rewrite plus_IZR. apply (Rmult_lt_reg_r H); [exact PH|]. rewrite Zv. cbn [IZR]. lra. }
      assert (Zn : (z < Z.of_nat n)%Z). { apply lt_IZR. rewrite <- INR_IZR_INZ. apply (Rmult_lt_reg_r H); [exact PH|]. rewrite Zv. lra. }
      exists (Z.to_nat z). split; [unfold cs; rewrite map_length, seq_length; lia|]. rewrite INR_IZR_INZ, Z2Nat.id by exact Z0. exact Zv.
    - intros c Hc. apply In_nth_error in Hc. destruct Hc as [i Hc]. destruct (Nth i c Hc) as (Li & _ & Ei & Bi). apply Rabs_le_inv in Ei. exists lo, hi. split; [exact Il|]. split; [exact Ih|].
      pose proof (pos_INR i) as I0. assert (L1 : INR i + 1 <= INR n) by (rewrite <- S_INR; apply le_INR; lia). assert (LH : INR i * H <= (INR n - 1) * H) by (apply Rmult_le_compat_r; lra). assert (L0 : 0 <= INR i * H) by (apply Rmult_le_pos; lra).
      assert (I1 : INR i * U <= 8388608 * U) by (apply Rmult_le_compat_r; lra). lra.
  Qed.
End Axis.
