(** Lemmas for C103: trimming and normalising. *)
From Coq Require Import ZArith Bool Reals Lra Lia List Permutation.
From Flocq Require Import Core.Core IEEE754.BinarySingleNaN.
From Verif Require Import Base FloatComp FloatCompProofs FloatCompAcc FloatSource SpecFloatSource FloatSourceProofs FloatSpace FloatSpaceProofs FloatProfileProofs.
From Verif Require Import Energy SpecEnergy EnergyProofs FloatEnergy SpecFloatEnergy.
Open Scope R_scope.
Local Notation bp := (bpow radix2).

(** ** The mask *)
Lemma nonzero_agree l : Forall (fun x : f64 => is_finite x = true) l -> forall i, nonzero_from64 i l = nonzero_from i (map B2R l).
Proof.
  induction 1 as [|x l F _ IH]; intro i; [reflexivity|]. cbn [nonzero_from64 nonzero_from map]. rewrite IH.
  destruct (Beqb x f0) eqn:E.
  - apply eqb_val in E; [|exact F|reflexivity]. change (B2R f0) with 0 in E. destruct (Reqb_spec (B2R x) 0); [reflexivity|contradiction].
  - apply eqb_val_f in E; [|exact F|reflexivity]. change (B2R f0) with 0 in E. destruct (Reqb_spec (B2R x) 0); [contradiction|reflexivity].
Qed.
Lemma mask_agree l : Forall (fun x : f64 => is_finite x = true) l -> trim_zero_mask64 l = trim_zero_mask (map B2R l).
Proof. intro F. unfold trim_zero_mask64, trim_zero_mask. now rewrite (nonzero_agree l F), map_length. Qed.
Lemma zeros_real (l : list f64) : Forall is_zero l -> map B2R l = repeat 0 (length l).
Proof. induction 1 as [|x l [_ Z] _ IH]; cbn; [reflexivity|]. now rewrite Z, IH. Qed.
Lemma nonzero_nil (l : list f64) : forall i, nonzero_from64 i l = [] <-> Forall is_zero l.
Proof.
  induction l as [|x l IH]; intro i; cbn [nonzero_from64]; [split; [constructor|reflexivity]|].
  destruct (Beqb x f0) eqn:E.
  - rewrite IH. assert (Z : is_zero x).
    { destruct x as [[|]|[|]| |s m e B]; try discriminate E; split; reflexivity || (cbn in E; destruct s; discriminate E). }
    split; [now constructor|]. intro H. now inversion H.
  - split; [discriminate|]. intro H. inversion H as [|y r [F Z] _]; subst. apply eqb_val_f in E; [|exact F|reflexivity]. now rewrite Z in E.
Qed.
Lemma hd_map {A} (f : A -> R) l d : l <> [] -> hd 0 (map f l) = f (hd d l).
Proof. destruct l; [congruence|reflexivity]. Qed.
Lemma last_map {A} (f : A -> R) l d : l <> [] -> last (map f l) 0 = f (last l d).
Proof. induction l as [|x [|y l] IH]; intro H; [congruence|reflexivity|]. cbn [map last] in *. apply IH. discriminate. Qed.
Lemma prepare_split np_sum e1 e2 e3 p1 p2 p3 : length e1 = length p1 -> length e2 = length p2 -> length e3 = length p3 -> Forall is_zero p1 -> Forall is_zero p3 ->
  Forall (fun x : f64 => is_finite x = true) p2 -> p2 <> [] -> B2R (hd f0 p2) <> 0 -> B2R (last p2 f0) <> 0 ->
  prepare_energy_pdf64 np_sum (e1 ++ e2 ++ e3) (p1 ++ p2 ++ p3) = Ok (e2, map (fun p => fdiv p (np_sum (panels64 e2 p2))) p2).
Proof.
  intros L1 L2 L3 Z1 Z3 F2 N H T. unfold prepare_energy_pdf64.
  assert (Fz : forall l, Forall is_zero l -> Forall (fun x : f64 => is_finite x = true) l) by (intros l; apply Forall_impl; now intros x []).
  rewrite mask_agree by (apply Forall_app; split; [auto|apply Forall_app; split; auto]).
  assert (Tr : trimmed (map B2R (p1 ++ p2 ++ p3)) (length p1) (map B2R p2) (length p3)).
  { split; [rewrite !map_app; f_equal; [exact (zeros_real p1 Z1)|]; f_equal; exact (zeros_real p3 Z3)|]. split; [destruct p2; [congruence|discriminate]|]. split.
    - now rewrite (hd_map B2R p2 f0 N).
    - now rewrite (last_map B2R p2 f0 N). }
  rewrite (trim_mask _ _ _ _ Tr), map_length. cbn [bind]. pose proof (masked_slice e1 e2 e3) as Me. rewrite L1, L2, L3 in Me. pose proof (masked_slice p1 p2 p3) as Mp.
  unfold f64 in *. rewrite Mp, Me. reflexivity.
Qed.

(** ** Panels *)
Definition row_ok (x : f64) : Prop := is_finite x = true /\ Rabs (B2R x) <= bp 100.
Definition dens_ok (x : f64) : Prop := is_finite x = true /\ (B2R x = 0 \/ bp (-600) <= B2R x <= bp 100).
Lemma dens_nn x : dens_ok x -> fin_nn x.
Proof. intros [F H]. pose proof (bp_pos (-600)). split; [exact F|lra]. Qed.
Lemma f2_val : is_finite f2 = true /\ B2R f2 = 2.
Proof. exact (f64_of_Z_exact 2 ltac:(lia)). Qed.
Lemma panel_ok (x0 x1 y0 y1 : f64) : row_ok x0 -> row_ok x1 -> dens_ok y0 -> dens_ok y1 -> B2R x0 + bp (-100) <= B2R x1 ->
  let v := fdiv (fmul (fsub x1 x0) (fadd y1 y0)) f2 in let X := (B2R x1 - B2R x0) * (B2R y0 + B2R y1) / 2 in
  fin_nn v /\ close 4 (B2R v) X /\ (X = 0 \/ bp (-701) <= X) /\ X <= bp 201.
Proof.
  intros [F0 M0] [F1 M1] D0 D1 G v X. destruct f2_val as [F2 V2]. pose proof (bp_pos (-100)) as P. pose proof (bp_pos 100) as P1.
  pose proof (dens_nn _ D0) as N0. pose proof (dens_nn _ D1) as N1. destruct D0 as [_ D0], D1 as [_ D1].
  apply Rabs_le_inv in M0, M1. assert (B1 : bp 101 = 2 * bp 100) by (rewrite <- bp_1, bp_mul; reflexivity).
  set (d := B2R x1 - B2R x0) in *. assert (Hd : bp (-100) <= d <= bp 101) by (unfold d; lra).
  (* the difference *)
  assert (Sub : fin_nn (fsub x1 x0) /\ close 1 (B2R (fsub x1 x0)) d).
  { assert (C : close 1 (rnd d) d) by (apply rnd_close; right; eapply Rle_trans; [|apply Hd]; apply bpow_le; lia).
    assert (T : Rabs (rnd d) < bp 1024) by (apply rnd_top; split; [lra|]; eapply Rle_trans; [apply Hd|]; apply bpow_le; lia).
    destruct (fsub_cases x1 x0 F1 F0 T) as [E F]. unfold f64 in *. fold d in E. split; [split; [exact F|]|]; rewrite E; [apply C|exact C]. }
  destruct Sub as [Sn Sc].
  (* the sum *)
  set (s := B2R y0 + B2R y1) in *. pose proof (bp_pos (-600)) as P6.
  assert (Hs : s = 0 \/ bp (-600) <= s <= bp 101) by (unfold s; destruct D0 as [D0|D0], D1 as [D1|D1]; lra).
  assert (Hs0 : 0 <= s <= bp 101) by lra.
  assert (Add : fin_nn (fadd y1 y0) /\ close 1 (B2R (fadd y1 y0)) s).
  { destruct (fadd_close y1 y0 N1 N0) as [A B]; [rewrite Rplus_comm; fold s; eapply Rle_trans; [apply Hs0|]; apply bpow_le; lia|]. split; [exact A|]. rewrite Rplus_comm in B. exact B. }
  destruct Add as [An Ac].
  assert (Q : close 2 (B2R (fsub x1 x0) * B2R (fadd y1 y0)) (d * s)) by exact (close_mult 1 1 _ _ _ _ Sc Ac).
  assert (E21 : forall a, bp (a + 1) = 2 * bp a) by (intro a; rewrite <- bp_1, bp_mul; f_equal; lia).
  assert (W2 : wp 2 <= 2) by (rewrite <- bp_1; apply wp_2; cbn; pose proof uu_small; lra).
  assert (Sz : d * s = 0 \/ bp (-700) <= d * s <= bp 202).
  { destruct Hs as [-> |Hs]; [left; ring|right]. replace (bp (-700)) with (bp (-100) * bp (-600)) by (rewrite bp_mul; reflexivity). replace (bp 202) with (bp 101 * bp 101) by (rewrite bp_mul; reflexivity). split; apply Rmult_le_compat; lra. }
  set (q := B2R (fsub x1 x0) * B2R (fadd y1 y0)) in *.
  assert (Sq : q = 0 \/ bp (-701) <= q <= bp 203).
  { destruct Q as (Q0 & Q1 & Q2 & Q3). destruct Sz as [Z|Sz]; [left; rewrite Z in *; lra|right]. pose proof (E21 202%Z) as E9; change (202 + 1)%Z with 203%Z in E9. pose proof (E21 (-701)%Z) as E7. change (-701 + 1)%Z with (-700)%Z in E7. nra. }
  assert (Nq : normal q) by (destruct Sq as [Z|Sq]; [now left|apply (normal_of q (-701) 203); [exact Sq|lia|lia]]).
  destruct (fmul_close _ _ Sn An Nq) as [Mn Mc]. fold q in Mc. set (w := fmul (fsub x1 x0) (fadd y1 y0)) in *.
  assert (Q3 : close 3 (B2R w) (d * s)) by exact (close_trans 1 2 _ _ _ Mc Q).
  assert (W3 : wp 3 <= 2) by (rewrite <- bp_1; apply wp_2; cbn; pose proof uu_small; lra).
  assert (Sw : B2R w / B2R f2 = 0 \/ bp (-702) <= B2R w / B2R f2 <= bp 203).
  { rewrite V2. destruct Q3 as (Q0 & Q1 & Q2 & Q3). destruct Sz as [Z|Sz]; [left; rewrite Z in *; lra|right]. pose proof (E21 202%Z) as E9; change (202 + 1)%Z with 203%Z in E9. pose proof (E21 (-701)%Z) as E7. pose proof (E21 (-702)%Z) as E8. change (-701 + 1)%Z with (-700)%Z in E7. change (-702 + 1)%Z with (-701)%Z in E8. split; nra. }
  assert (Nw : normal (B2R w / B2R f2)) by (destruct Sw as [Z|Sw]; [now left|apply (normal_of _ (-702) 203); [exact Sw|lia|lia]]).
  destruct (fdiv_close w f2 Mn) as [Vn Vc]; [split; [exact F2|rewrite V2; lra]|rewrite V2; lra|exact Nw|]. fold v in Vn, Vc.
  split; [exact Vn|]. split.
  - assert (C2 : close 3 (B2R w / B2R f2) (d * s / 2)) by (rewrite V2; apply (close_mult_r 3 _ _ (/ 2)); [lra|exact Q3]). exact (close_trans 1 3 _ _ _ Vc C2).
  - unfold X. pose proof (E21 (-701)%Z) as E7. change (-701 + 1)%Z with (-700)%Z in E7. pose proof (E21 201%Z) as E8. change (201 + 1)%Z with 202%Z in E8. pose proof (bp_pos 201). split; [|lra].
    destruct Sz as [Z|Sz]; [left; lra|right; lra].
Qed.
Lemma panels_ok e p : length e = length p -> Forall row_ok e -> spaced (bp (-100)) e -> Forall dens_ok p ->
  let I := integral (combine (map B2R e) (map B2R p)) in
  Forall fin_nn (panels64 e p) /\ close 4 (exact_sum (panels64 e p)) I /\ (length (panels64 e p) <= length e - 1)%nat /\ (I = 0 \/ bp (-701) <= I) /\ I <= INR (length e - 1) * bp 201.
Proof.
  revert p. induction e as [|x0 e IH]; intros p HL He Hs Hp I.
  - unfold I. cbn [map combine integral panels64 length exact_sum fold_right Nat.sub INR]. split; [constructor|]. split; [exact (close_weaken 0 4 _ _ ltac:(lia) (close_refl 0 (Rle_refl 0)))|]. split; [lia|]. split; [left; reflexivity|]. pose proof (bp_pos 201). lra.
  - destruct p as [|y0 p]; [discriminate|]. destruct e as [|x1 e], p as [|y1 p]; try discriminate HL.
    + unfold I. cbn [map combine integral panels64 length exact_sum fold_right Nat.sub INR]. split; [constructor|]. split; [exact (close_weaken 0 4 _ _ ltac:(lia) (close_refl 0 (Rle_refl 0)))|]. split; [lia|]. split; [left; reflexivity|]. pose proof (bp_pos 201). lra.
    + apply Forall_inv in He as X0. apply Forall_inv_tail in He as He'. apply Forall_inv in He' as X1. apply Forall_inv in Hp as Y0. apply Forall_inv_tail in Hp as Hp'. apply Forall_inv in Hp' as Y1.
      destruct Hs as [G Hs]. destruct (IH (y1 :: p) ltac:(cbn in *; lia) He' Hs Hp') as (A & B & C & D & U). destruct (panel_ok x0 x1 y0 y1 X0 X1 Y0 Y1 G) as (Vn & Vc & Vs & Vt).
      set (v := fdiv (fmul (fsub x1 x0) (fadd y1 y0)) f2) in *. change (panels64 (x0 :: x1 :: e) (y0 :: y1 :: p)) with (v :: panels64 (x1 :: e) (y1 :: p)).
      set (I' := integral (combine (map B2R (x1 :: e)) (map B2R (y1 :: p)))) in *. set (X := (B2R x1 - B2R x0) * (B2R y0 + B2R y1) / 2) in *.
      assert (EI : I = X + I') by reflexivity. rewrite EI. clearbody I'. pose proof (bp_pos (-701)).
      split; [now constructor|]. split; [cbn [exact_sum fold_right]; fold (exact_sum (panels64 (x1 :: e) (y1 :: p))); now apply close_plus|]. split; [cbn [length] in *; lia|]. split.
      * assert (0 <= I') by apply B. assert (0 <= X) by apply Vc. lra.
      * replace (length (x0 :: x1 :: e) - 1)%nat with (S (length (x1 :: e) - 1)) by (cbn [length]; lia). rewrite S_INR. lra.
Qed.

Lemma integral_first_pos e p : length e = length p -> (2 <= length e)%nat -> Forall row_ok e -> spaced (bp (-100)) e -> Forall dens_ok p -> B2R (hd f0 p) <> 0 ->
  bp (-701) <= integral (combine (map B2R e) (map B2R p)).
Proof.
  intros HL H2 He Hs Hp N. destruct (panels_ok e p HL He Hs Hp) as (_ & _ & _ & [Z|D] & _); [|exact D]. exfalso.
  destruct e as [|x0 [|x1 e]]; try (cbn in H2; lia). destruct p as [|y0 [|y1 p]]; try discriminate HL. cbn [hd] in N.
  apply Forall_inv_tail in He as He'. apply Forall_inv in Hp as Y0. apply Forall_inv_tail in Hp as Hp'. apply Forall_inv in Hp' as Y1. destruct Hs as [G Hs].
  destruct (panels_ok (x1 :: e) (y1 :: p) ltac:(cbn in *; lia) He' Hs Hp') as (_ & (_ & I0 & _) & _).
  change (integral (combine (map B2R (x0 :: x1 :: e)) (map B2R (y0 :: y1 :: p)))) with ((B2R x1 - B2R x0) * (B2R y0 + B2R y1) / 2 + integral (combine (map B2R (x1 :: e)) (map B2R (y1 :: p)))) in Z.
  pose proof (dens_nn _ Y0) as [_ P0]. pose proof (dens_nn _ Y1) as [_ P1]. pose proof (bp_pos (-100)).
  assert (0 < (B2R x1 - B2R x0) * (B2R y0 + B2R y1)) by (apply Rmult_lt_0_compat; lra). lra.
Qed.

(** ** Normalising *)
Lemma total_ok np_sum e p : (forall l, sums l (np_sum l)) -> length e = length p -> (2 <= length e)%nat -> INR (length e) <= bp 40 ->
  Forall row_ok e -> spaced (bp (-100)) e -> Forall dens_ok p -> B2R (hd f0 p) <> 0 ->
  let I := integral (combine (map B2R e) (map B2R p)) in let t := np_sum (panels64 e p) in
  fin_nn t /\ close (length e + 3) (B2R t) I /\ bp (-701) <= I <= bp 241.
Proof.
  intros Hsum HL H2 Hn He Hs Hp N I t. destruct (panels_ok e p HL He Hs Hp) as (A & B & C & _ & U). pose proof (integral_first_pos e p HL H2 He Hs Hp N) as L. fold I in B, U, L.
  assert (U1 : I <= bp 241).
  { eapply Rle_trans; [exact U|]. replace (bp 241) with (bp 40 * bp 201) by (rewrite bp_mul; reflexivity). apply Rmult_le_compat_r; [left; apply bp_pos|]. eapply Rle_trans; [|exact Hn]. apply le_INR. lia. }
  set (l := panels64 e p) in *. assert (Ln : INR (length l) <= bp 45). { eapply Rle_trans; [|apply (bpow_le radix2 40 45); lia]. eapply Rle_trans; [|exact Hn]. apply le_INR. lia. }
  pose proof (wp_2 _ (few _ Ln)) as W. pose proof (exact_sum_nonneg l A) as S0.
  assert (S1 : exact_sum l <= bp 242).
  { destruct B as (_ & _ & B & _). assert (wp 4 <= bp 1) by (apply wp_2; cbn; pose proof uu_small; lra). replace (bp 242) with (bp 241 * bp 1) by (rewrite bp_mul; reflexivity). eapply Rle_trans; [exact B|]. pose proof (bp_pos (-701)). pose proof (wp_1 4). apply Rmult_le_compat; lra. }
  destruct (sums_close l t (Hsum l) A) as (T1 & T2 & _).
  { apply Rle_trans with (bp 242 * bp 1); [apply Rmult_le_compat; try lra; pose proof (wp_1 (length l)); lra|]. rewrite bp_mul. apply bpow_le. lia. }
  split; [exact T1|]. split; [|lra]. apply (close_weaken (length l + 4)); [lia|]. exact (close_trans _ _ _ _ _ T2 B).
Qed.
Lemma quotient_ok (p t : f64) I n : INR n <= bp 42 -> dens_ok p -> fin_nn t -> close n (B2R t) I -> bp (-701) <= I <= bp 241 ->
  fin_nn (fdiv p t) /\ close (n + 1) (B2R (fdiv p t)) (B2R p / I).
Proof.
  intros Hn Dp Ft C B. pose proof (dens_nn p Dp) as Np. destruct Dp as [_ Dp]. pose proof (bp_pos (-701)) as P.
  assert (Ln : INR n <= bp 45) by (eapply Rle_trans; [exact Hn|]; apply bpow_le; lia). pose proof (wp_2 _ (few _ Ln)) as W. pose proof (wp_1 n) as W1. rewrite bp_1 in W.
  destruct C as (C0 & C1 & C2 & C3).
  assert (E21 : forall a, bp (a + 1) = 2 * bp a) by (intro a; rewrite <- bp_1, bp_mul; f_equal; lia).
  pose proof (E21 (-702)%Z) as E1. change (-702 + 1)%Z with (-701)%Z in E1. pose proof (E21 241%Z) as E2. change (241 + 1)%Z with 242%Z in E2.
  assert (Bt : bp (-702) <= B2R t <= bp 242) by (split; nra). pose proof (bp_pos (-702)). pose proof (bp_pos (-600)).
  assert (Q : B2R p / B2R t = 0 \/ bp (-842) <= B2R p / B2R t <= bp 802).
  { destruct Dp as [-> |Dp]; [left; unfold Rdiv; ring|right]. replace (bp (-842)) with (bp (-600) / bp 242) by (rewrite bp_div; reflexivity). replace (bp 802) with (bp 100 / bp (-702)) by (rewrite bp_div; reflexivity).
    unfold Rdiv. split; apply Rmult_le_compat; try lra; try (left; apply Rinv_0_lt_compat; lra || apply bp_pos); apply Rinv_le_contravar; lra. }
  assert (Nq : normal (B2R p / B2R t)) by (destruct Q as [Z|Q]; [now left|apply (normal_of _ (-842) 802); [exact Q|lia|lia]]).
  destruct (fdiv_close p t Np Ft ltac:(lra) Nq) as [F E]. split; [exact F|]. apply (close_weaken (1 + (0 + n))); [lia|]. eapply close_trans; [exact E|].
  apply close_div; [apply close_refl; apply Np|split; [exact C0|]; split; [exact C1|]; split; [exact C2|exact C3]|lra].
Qed.
