(** Lemmas for C102. *)
From Coq Require Import ZArith Bool Reals Lra Lia List Permutation.
From Flocq Require Import Core.Core IEEE754.BinarySingleNaN.
From Verif Require Import Base FloatComp FloatCompProofs FloatCompAcc FloatSource SpecFloatSource FloatSourceProofs FloatSpace SpecFloatSpace FloatSpaceProofs.
From Verif Require Import FloatProfileProofs Geometry SpecGeometry GeometryProofs FloatGeometry SpecFloatGeometry.
Open Scope R_scope.
Local Notation bp := (bpow radix2).

Lemma uu_le : 0 < uu <= / 9007199254740992.
Proof. split; [apply uu_small|]. rewrite uu_val. apply Rle_refl. Qed.
Lemma bp30 : bp 30 = 1073741824. Proof. reflexivity. Qed.
Lemma K30 K : 1 <= K <= 1073741824 -> 1 <= K <= bp 30. Proof. rewrite bp30. auto. Qed.

(** A value in error by at most e units: finite, and near x. *)
Definition near (M e : R) (f : f64) (x : R) : Prop := is_finite f = true /\ Rabs (B2R f - x) <= e * (uu * M).
Lemma near_self M f e : 0 <= e -> 0 <= M -> is_finite f = true -> near M e f (B2R f).
Proof. intros He HM F. split; [exact F|]. rewrite Rminus_diag_eq, Rabs_R0 by reflexivity. apply Rmult_le_pos; [exact He|]. apply Rmult_le_pos; [left; apply uu_small|exact HM]. Qed.
Lemma near_weak M e e' f x : 0 <= M -> near M e f x -> e <= e' -> near M e' f x.
Proof. intros HM [F E] L. split; [exact F|]. eapply Rle_trans; [exact E|]. apply Rmult_le_compat_r; [apply Rmult_le_pos; [left; apply uu_small|exact HM]|exact L]. Qed.
Lemma near_add M ea eb Ka a b x y : scale M -> 0 < Ka -> near M ea a x -> near M eb b y -> Rabs (x + y) <= Ka * M -> (ea + eb) * uu <= Ka / 100 -> 1 <= 1.01 * Ka <= 1073741824 ->
  near M (ea + eb + 1.01 * Ka) (fadd a b) (x + y).
Proof.
  intros SM HK [Fa Ea] [Fb Eb] L S H. assert (PM : 0 < M) by (destruct SM as [L1 _]; pose proof (bpow_gt_0 radix2 (-200)); lra). pose proof uu_small.
  assert (D : Rabs (B2R a + B2R b - (x + y)) <= (ea + eb) * uu * M).
  { replace (B2R a + B2R b - (x + y)) with ((B2R a - x) + (B2R b - y)) by ring. eapply Rle_trans; [apply Rabs_triang|]. lra. }
  assert (D' : (ea + eb) * uu * M <= Ka / 100 * M) by (apply Rmult_le_compat_r; lra).
  destruct (fadd_about M (1.01 * Ka) a b SM (K30 _ H) Fa Fb) as [F E].
  { replace (B2R a + B2R b) with ((B2R a + B2R b - (x + y)) + (x + y)) by ring. eapply Rle_trans; [apply Rabs_triang|]. lra. }
  split; [exact F|]. replace (B2R (fadd a b) - (x + y)) with ((B2R (fadd a b) - (B2R a + B2R b)) + (B2R a + B2R b - (x + y))) by ring.
  eapply Rle_trans; [apply Rabs_triang|]. lra.
Qed.
Lemma near_sub M ea eb Ka a b x y : scale M -> 0 < Ka -> near M ea a x -> near M eb b y -> Rabs (x - y) <= Ka * M -> (ea + eb) * uu <= Ka / 100 -> 1 <= 1.01 * Ka <= 1073741824 ->
  near M (ea + eb + 1.01 * Ka) (fsub a b) (x - y).
Proof.
  intros SM HK [Fa Ea] [Fb Eb] L S H. assert (PM : 0 < M) by (destruct SM as [L1 _]; pose proof (bpow_gt_0 radix2 (-200)); lra). pose proof uu_small.
  assert (D : Rabs (B2R a - B2R b - (x - y)) <= (ea + eb) * uu * M).
  { replace (B2R a - B2R b - (x - y)) with ((B2R a - x) - (B2R b - y)) by ring. eapply Rle_trans; [apply Rabs_triang|]. rewrite Rabs_Ropp. lra. }
  assert (D' : (ea + eb) * uu * M <= Ka / 100 * M) by (apply Rmult_le_compat_r; lra).
  destruct (fsub_about M (1.01 * Ka) a b SM (K30 _ H) Fa Fb) as [F E].
  { replace (B2R a - B2R b) with ((B2R a - B2R b - (x - y)) + (x - y)) by ring. eapply Rle_trans; [apply Rabs_triang|]. lra. }
  split; [exact F|]. replace (B2R (fsub a b) - (x - y)) with ((B2R (fsub a b) - (B2R a - B2R b)) + (B2R a - B2R b - (x - y))) by ring.
  eapply Rle_trans; [apply Rabs_triang|]. lra.
Qed.
(** Product of a quantity of size Ka M and one of size Kb N. *)
Lemma near_mul M N ea eb Ka Kb a b x y : scale (M * N) -> 0 < M -> 0 < N -> 0 < Ka -> 0 < Kb -> 0 <= ea -> 0 <= eb -> near M ea a x -> near N eb b y -> Rabs x <= Ka * M -> Rabs y <= Kb * N ->
  ea <= 1000 * Ka -> eb <= 1000 * Kb -> 1 <= 1.01 * (Ka * Kb) <= 1073741824 ->
  near (M * N) (ea * Kb + eb * Ka + 1.02 * (Ka * Kb)) (fmul a b) (x * y).
Proof.
  intros SM PM PN HK HK' Pa Pb [Fa Ea] [Fb Eb] Lx Ly Sa Sb H. pose proof uu_le as U.
  assert (D : Rabs (B2R a * B2R b - x * y) <= (ea * Kb + eb * Ka + ea * eb * uu) * uu * (M * N)).
  { replace (B2R a * B2R b - x * y) with ((B2R a - x) * y + (B2R b - y) * x + (B2R a - x) * (B2R b - y)) by ring.
    assert (H1 : Rabs ((B2R a - x) * y) <= ea * (uu * M) * (Kb * N)) by (rewrite Rabs_mult; apply Rmult_le_compat; auto using Rabs_pos).
    assert (H2 : Rabs ((B2R b - y) * x) <= eb * (uu * N) * (Ka * M)) by (rewrite Rabs_mult; apply Rmult_le_compat; auto using Rabs_pos).
    assert (H3 : Rabs ((B2R a - x) * (B2R b - y)) <= ea * (uu * M) * (eb * (uu * N))) by (rewrite Rabs_mult; apply Rmult_le_compat; auto using Rabs_pos).
    eapply Rle_trans; [apply Rabs_triang|]. eapply Rle_trans; [apply Rplus_le_compat_r, Rabs_triang|]. lra. }
  set (MN := M * N) in *. assert (PMN : 0 < MN) by (unfold MN; now apply Rmult_lt_0_compat).
  assert (PK : 0 < Ka * Kb) by now apply Rmult_lt_0_compat.
  assert (Q1 : ea * Kb <= 1000 * (Ka * Kb)) by nra. assert (Q2 : eb * Ka <= 1000 * (Ka * Kb)) by nra.
  assert (Q3 : ea * eb <= 1000000 * (Ka * Kb)). { apply Rle_trans with ((1000 * Ka) * (1000 * Kb)); [apply Rmult_le_compat; assumption|lra]. }
  assert (P3 : 0 <= ea * eb) by now apply Rmult_le_pos.
  assert (Q4 : ea * eb * uu <= / 1000 * (Ka * Kb)). { apply Rle_trans with (1000000 * (Ka * Kb) * uu); [apply Rmult_le_compat_r; lra|]. nra. }
  assert (T : (ea * Kb + eb * Ka + ea * eb * uu) * uu <= / 1000 * (Ka * Kb)). { apply Rle_trans with (2001 * (Ka * Kb) * uu); [apply Rmult_le_compat_r; lra|]. nra. }
  assert (D' : (ea * Kb + eb * Ka + ea * eb * uu) * uu * MN <= / 1000 * (Ka * Kb) * MN) by (apply Rmult_le_compat_r; lra).
  assert (L : Rabs (x * y) <= Ka * Kb * MN). { rewrite Rabs_mult. unfold MN. replace (Ka * Kb * (M * N)) with ((Ka * M) * (Kb * N)) by ring. apply Rmult_le_compat; auto using Rabs_pos. }
  assert (PKM : 0 < Ka * Kb * MN) by now apply Rmult_lt_0_compat.
  destruct (fmul_about MN (1.01 * (Ka * Kb)) a b SM (K30 _ H) Fa Fb) as [F E].
  { replace (B2R a * B2R b) with ((B2R a * B2R b - x * y) + x * y) by ring. eapply Rle_trans; [apply Rabs_triang|]. lra. }
  split; [exact F|]. replace (B2R (fmul a b) - x * y) with ((B2R (fmul a b) - (B2R a * B2R b)) + (B2R a * B2R b - x * y)) by ring.
  eapply Rle_trans; [apply Rabs_triang|]. assert (ea * eb * uu * (uu * MN) <= / 1000 * (Ka * Kb) * (uu * MN)) by (apply Rmult_le_compat_r; [apply Rmult_le_pos; lra|lra]). assert (0 <= Ka * Kb * (uu * MN)) by (apply Rmult_le_pos; [lra|apply Rmult_le_pos; lra]). lra.
Qed.

(** ** Loops *)
Definition fl (l : list (f64 * f64)) : list (R * R) := map point l.
Definition edges (l : list (f64 * f64)) : R := INR (length l) - 1.
Lemma edge_loop_ok (f : f64 * f64 -> f64 * f64 -> f64) (g : R * R -> R * R -> R) M T E :
  scale M -> 1 <= T <= 4 -> 0 <= E <= 100 ->
  forall l, l <> [] -> (forall p q, In p l -> In q l -> near M E (f p q) (g (point p) (point q)) /\ Rabs (g (point p) (point q)) <= T * M) ->
  forall a s J, 0 <= J -> J + edges l <= 1048576 -> near M (E * J + 1.01 * T * J ^ 2) a s -> Rabs s <= T * J * M ->
  let k := J + edges l in near M (E * k + 1.01 * T * k ^ 2) (edge_loop64 f a l) (s + edge_sum g (fl l)) /\ Rabs (s + edge_sum g (fl l)) <= T * k * M.
Proof.
  intros SM HT HE l. induction l as [|p r IH]; [easy|]. intros _ H a s J PJ LJ Na Ls. destruct r as [|q r].
  - unfold edges. cbn [length INR edge_loop64 fl map edge_sum]. replace (J + (1 - 1)) with J by ring. rewrite Rplus_0_r. now split.
  - assert (PM : 0 < M) by (destruct SM as [L1 _]; pose proof (bpow_gt_0 radix2 (-200)); lra). pose proof uu_le as U.
    assert (Ek : edges (p :: q :: r) = 1 + edges (q :: r)). { unfold edges. change (length (p :: q :: r)) with (S (length (q :: r))). rewrite S_INR. lra. }
    assert (Pe : 0 <= edges (q :: r)). { unfold edges. change (length (q :: r)) with (S (length r)). rewrite S_INR. pose proof (pos_INR (length r)). lra. }
    destruct (H p q) as [Nf Lf]; [now left|right; now left|].
    assert (LS : Rabs (s + g (point p) (point q)) <= T * (J + 1) * M). { eapply Rle_trans; [apply Rabs_triang|]. lra. }
    assert (N' : near M (E * (J + 1) + 1.01 * T * (J + 1) ^ 2) (fadd a (f p q)) (s + g (point p) (point q))).
    { apply near_weak with ((E * J + 1.01 * T * J ^ 2) + E + 1.01 * (T * (J + 1))); [lra| |].
      - apply near_add; auto; [nra| |].
        + assert (J1 : J <= 1048576) by lra. assert (J * J <= 1048576 * J) by nra. assert (T * (J * J) <= 4194304 * J) by nra. assert (E * J <= 100 * J) by nra.
          apply Rle_trans with (5000000 * (J + 1) * uu); [apply Rmult_le_compat_r; lra|]. assert (5000000 * uu <= 1 / 100) by lra. assert (J + 1 <= T * (J + 1)) by nra. nra.
        + split; [nra|]. assert (T * (J + 1) <= 4 * 1048577) by (apply Rmult_le_compat; lra). lra.
      - assert (0 <= T * J) by nra. nra. }
    cbn [edge_loop64]. destruct (IH ltac:(discriminate) ltac:(intros; apply H; now right) (fadd a (f p q)) (s + g (point p) (point q)) (J + 1) ltac:(lra) ltac:(lra) N' LS) as [I1 I2].
    rewrite Ek. replace (J + (1 + edges (q :: r))) with (J + 1 + edges (q :: r)) by ring.
    change (fl (p :: q :: r)) with (point p :: point q :: fl r). rewrite edge_sum_cons. change (point q :: fl r) with (fl (q :: r)). rewrite <- Rplus_assoc. now split.
Qed.
Lemma edge_loop_sum (f : f64 * f64 -> f64 * f64 -> f64) (g : R * R -> R * R -> R) M T E l :
  scale M -> 1 <= T <= 4 -> 0 <= E <= 100 -> l <> [] -> edges l <= 1048576 ->
  (forall p q, In p l -> In q l -> near M E (f p q) (g (point p) (point q)) /\ Rabs (g (point p) (point q)) <= T * M) ->
  let k := edges l in near M (E * k + 1.01 * T * k ^ 2) (edge_loop64 f f0 l) (edge_sum g (fl l)) /\ Rabs (edge_sum g (fl l)) <= T * k * M.
Proof.
  intros SM HT HE N L H k. assert (PM : 0 < M) by (destruct SM as [L1 _]; pose proof (bpow_gt_0 radix2 (-200)); lra).
  destruct (edge_loop_ok f g M T E SM HT HE l N H f0 0 0) as [A B]; try lra.
  - split; [reflexivity|]. change (B2R f0) with 0. rewrite Rminus_0_r, Rabs_R0. lra.
  - rewrite Rabs_R0. lra.
  - rewrite !Rplus_0_l in A, B. now split.
Qed.

(** ** Scalar products *)
Definition dotR (l : list (f64 * f64)) : R := fold_right (fun p s => B2R (fst p) * B2R (snd p) + s) 0 l.
Lemma dotR_app a b : dotR (a ++ b) = dotR a + dotR b.
Proof. unfold dotR. induction a as [|p a IH]; cbn [app fold_right]; [lra|rewrite IH; lra]. Qed.
Lemma dotR_perm a b : Permutation a b -> dotR a = dotR b.
Proof. unfold dotR. induction 1; cbn [fold_right]; lra. Qed.
Lemma dotR_le C l : 0 <= C -> (forall p, In p l -> Rabs (B2R (fst p)) <= C /\ Rabs (B2R (snd p)) <= C) -> Rabs (dotR l) <= INR (length l) * (C * C).
Proof.
  intros PC. induction l as [|p l IH]; intro H; [cbn; rewrite Rabs_R0; lra|]. unfold dotR. cbn [fold_right length]. rewrite S_INR. fold (dotR l).
  eapply Rle_trans; [apply Rabs_triang|]. destruct (H p) as [H1 H2]; [now left|]. specialize (IH ltac:(intros; apply H; now right)).
  assert (Rabs (B2R (fst p) * B2R (snd p)) <= C * C) by (rewrite Rabs_mult; apply Rmult_le_compat; auto using Rabs_pos). lra.
Qed.
Lemma dots_ok C l x : scale (C * C) -> 0 < C -> dots l x -> INR (length l) <= 1048576 ->
  (forall p, In p l -> is_finite (fst p) = true /\ is_finite (snd p) = true /\ Rabs (B2R (fst p)) <= C /\ Rabs (B2R (snd p)) <= C) ->
  near (C * C) (1.01 * INR (length l) ^ 2) x (dotR l).
Proof.
  intros SC PC D. pose proof uu_le as U. assert (PCC : 0 < C * C) by now apply Rmult_lt_0_compat.
  assert (B : forall m : list (f64 * f64), (forall p, In p m -> is_finite (fst p) = true /\ is_finite (snd p) = true /\ Rabs (B2R (fst p)) <= C /\ Rabs (B2R (snd p)) <= C) -> Rabs (dotR m) <= INR (length m) * (C * C)).
  { intros m Hm. apply dotR_le; [lra|]. intros p Hp. destruct (Hm p Hp) as (_ & _ & H). exact H. }
  induction D as [z Fz Vz|x y|l l' x y a P D IH|l l1 l2 a b P D1 IH1 D2 IH2]; intros L H.
  - split; [exact Fz|]. cbn. rewrite Vz, Rminus_0_r, Rabs_R0. lra.
  - destruct (H (x, y)) as (Fx & Fy & Lx & Ly); [now left|]. cbn [fst snd] in *.
    destruct (fmul_about (C * C) 1 x y SC (K30 1 ltac:(lra)) Fx Fy) as [F E]. { rewrite Rabs_mult, Rmult_1_l. apply Rmult_le_compat; auto using Rabs_pos. }
    split; [exact F|]. unfold dotR. cbn [fold_right fst snd length INR]. rewrite Rplus_0_r. eapply Rle_trans; [exact E|]. nra.
  - assert (Hp : forall p, In p ((x, y) :: l') -> is_finite (fst p) = true /\ is_finite (snd p) = true /\ Rabs (B2R (fst p)) <= C /\ Rabs (B2R (snd p)) <= C) by (intros p Hp; apply H; eapply Permutation_in; [apply Permutation_sym; exact P|exact Hp]).
    rewrite (dotR_perm _ _ P). rewrite (Permutation_length P) in L |- *. destruct (Hp (x, y)) as (Fx & Fy & Lx & Ly); [now left|]. cbn [fst snd length] in *. rewrite S_INR in L |- *. pose proof (pos_INR (length l')) as P0. set (k := INR (length l')) in *.
    destruct IH as [Fa Ea]; [lra|intros; apply Hp; now right|].
    pose proof (B l' ltac:(intros; apply Hp; now right)) as Bl. fold k in Bl.
    assert (Pxy : Rabs (B2R x * B2R y) <= C * C) by (rewrite Rabs_mult; apply Rmult_le_compat; auto using Rabs_pos).
    assert (Ek : 1.01 * k ^ 2 * (uu * (C * C)) <= / 100 * k * (C * C)).
    { assert (k * k <= 1048576 * k) by nra. assert (1.01 * k ^ 2 * uu <= / 100 * k); [|nra]. apply Rle_trans with (1.01 * (1048576 * k) * uu); [apply Rmult_le_compat_r; nra|]. nra. }
    destruct (fma_about (C * C) (1.01 * (k + 1)) x y a SC (K30 (1.01 * (k + 1)) ltac:(lra)) Fx Fy Fa) as [F E].
    { replace (B2R x * B2R y + B2R a) with (B2R x * B2R y + ((B2R a - dotR l') + dotR l')) by ring. eapply Rle_trans; [apply Rabs_triang|]. eapply Rle_trans; [apply Rplus_le_compat_l, Rabs_triang|]. lra. }
    split; [exact F|]. change (dotR ((x, y) :: l')) with (B2R x * B2R y + dotR l').
    replace (B2R (ffma x y a) - (B2R x * B2R y + dotR l')) with ((B2R (ffma x y a) - (B2R x * B2R y + B2R a)) + (B2R a - dotR l')) by ring.
    eapply Rle_trans; [apply Rabs_triang|]. assert (0 <= k * (uu * (C * C))) by (apply Rmult_le_pos; [lra|apply Rmult_le_pos; lra]). nra.
  - assert (Hp : forall p, In p (l1 ++ l2) -> is_finite (fst p) = true /\ is_finite (snd p) = true /\ Rabs (B2R (fst p)) <= C /\ Rabs (B2R (snd p)) <= C) by (intros p Hp; apply H; eapply Permutation_in; [apply Permutation_sym; exact P|exact Hp]).
    rewrite (dotR_perm _ _ P), dotR_app. rewrite (Permutation_length P), app_length, plus_INR in L |- *.
    pose proof (pos_INR (length l1)) as P1. pose proof (pos_INR (length l2)) as P2.
    assert (H1 : forall p, In p l1 -> is_finite (fst p) = true /\ is_finite (snd p) = true /\ Rabs (B2R (fst p)) <= C /\ Rabs (B2R (snd p)) <= C) by (intros; apply Hp, in_or_app; now left).
    assert (H2 : forall p, In p l2 -> is_finite (fst p) = true /\ is_finite (snd p) = true /\ Rabs (B2R (fst p)) <= C /\ Rabs (B2R (snd p)) <= C) by (intros; apply Hp, in_or_app; now right).
    specialize (IH1 ltac:(lra) H1). specialize (IH2 ltac:(lra) H2). pose proof (B l1 H1) as B1. pose proof (B l2 H2) as B2. clear B H Hp H1 H2 P.
    assert (Z : forall m : list (f64 * f64), m = [] \/ 1 <= INR (length m)). { intros [|p m]; [now left|right]. change (length (p :: m)) with (S (length m)). rewrite S_INR. pose proof (pos_INR (length m)). lra. }
    assert (ZZ : forall (m1 m2 : list (f64 * f64)) (u v : f64), m1 = [] -> near (C * C) (1.01 * INR (length m1) ^ 2) u (dotR m1) -> near (C * C) (1.01 * INR (length m2) ^ 2) v (dotR m2) ->
        near (C * C) (1.01 * (INR (length m1) + INR (length m2)) ^ 2) (fadd u v) (dotR m1 + dotR m2) /\ near (C * C) (1.01 * (INR (length m2) + INR (length m1)) ^ 2) (fadd v u) (dotR m2 + dotR m1)).
    { intros m1 m2 u v -> [Fu Eu] [Fv Ev]. cbn in Eu. assert (Vu : B2R u = 0). { rewrite Rminus_0_r in Eu. replace (1.01 * (0 * (0 * 1)) * (uu * (C * C))) with 0 in Eu by ring. destruct (Req_dec (B2R u) 0) as [E|E]; [exact E|]. pose proof (Rabs_pos_lt _ E). lra. }
      change (dotR []) with 0. change (INR (length (@nil (f64 * f64)))) with 0. rewrite !Rplus_0_l, !Rplus_0_r.
      assert (Lt : Rabs (rnd (B2R v)) < bp 1024) by (rewrite rnd_id by apply B2R_fmt; apply abs_B2R_lt_emax).
      split.
      - destruct (fadd_cases u v Fu Fv) as [(_ & E & F)|(E & _)]; rewrite Vu, Rplus_0_l in E; [|lra]. split; [exact F|]. now rewrite E, rnd_id by apply B2R_fmt.
      - destruct (fadd_cases v u Fv Fu) as [(_ & E & F)|(E & _)]; rewrite Vu, Rplus_0_r in E; [|lra]. split; [exact F|]. now rewrite E, rnd_id by apply B2R_fmt. }
    destruct (Z l1) as [E1|G1]; [apply (ZZ l1 l2 a b E1 IH1 IH2)|]. destruct (Z l2) as [E2|G2]; [apply (ZZ l2 l1 b a E2 IH2 IH1)|].
    clear ZZ Z. set (k1 := INR (length l1)) in *. set (k2 := INR (length l2)) in *.
    apply near_weak with (1.01 * k1 ^ 2 + 1.01 * k2 ^ 2 + 1.01 * (k1 + k2)); [lra| |nra].
    apply near_add; auto; [lra| | |lra].
    + eapply Rle_trans; [apply Rabs_triang|]. lra.
    + assert (k1 * k1 <= 1048576 * k1) by nra. assert (k2 * k2 <= 1048576 * k2) by nra.
      apply Rle_trans with (1.01 * 1048576 * (k1 + k2) * uu); [apply Rmult_le_compat_r; nra|]. nra.
Qed.
