(** Lemmas for C104: the numbers. *)
From Coq Require Import Ascii String List Bool Arith ZArith Reals Lia Lra Permutation.
From Flocq Require Import Core.Core IEEE754.BinarySingleNaN.
From Verif Require Import Base Reactions Space Source SpecSource OpenMCProofs SpectraData Energy TextWrap SpecText TextProofs Format SpecFormat FormatProofs P_Text Mcnp SpecMcnp McnpProofs P_Mcnp
  FloatComp FloatCompProofs FloatCompAcc FloatSource SpecFloatSource FloatSourceProofs FloatSpaceProofs FloatReactivityProofs FloatMcnp SpecFloatMcnp FloatMcnpProofs.
Import ListNotations.
Open Scope R_scope.
Local Notation bp := (bpow radix2).

(** ** Lengths in cm *)
Section Lengths.
  Variable cm : f64.
  Hypothesis Hcm : factor_ok cm 100.
  Definition in_cm (x : f64) : f64 := fmul x cm.
  Lemma uu_50 : / 2 ^ 50 = 8 * uu.
  Proof. rewrite uu_val. rewrite (pow_IZR 2 50). change (Z.of_nat 50) with 50%Z. change (2 ^ 53)%Z with (8 * 2 ^ 50)%Z. rewrite mult_IZR. field. apply not_0_IZR. discriminate. Qed.
  Lemma cm_bounds : is_finite cm = true /\ 100 * (1 - 8 * uu) <= B2R cm <= 100 * (1 + 8 * uu).
  Proof. destruct Hcm as [F H]. split; [exact F|]. unfold Rdiv in H. rewrite uu_50 in H. apply Rabs_le_inv in H. lra. Qed.
  Lemma moderate_bounds (x : f64) : moderate x -> fin x /\ (B2R x = 0 \/ bp (-100) <= Rabs (B2R x)) /\ Rabs (B2R x) <= bp 100.
  Proof. intros [F H]. rewrite !two_bpow in H. split; [exact F|]. destruct H as [-> |H]; [split; [now left|rewrite Rabs_R0; apply bpow_ge_0]|split; [right|]; lra]. Qed.
  Lemma in_cm_ok x : moderate x -> fin (in_cm x) /\ B2R (in_cm x) = rnd (B2R x * B2R cm) /\ Rabs (B2R (in_cm x) - 100 * B2R x) <= 1000 * uu * Rabs (B2R x) /\ Rabs (B2R (in_cm x)) <= 101 * Rabs (B2R x).
  Proof.
    intro M. destruct (moderate_bounds x M) as (F & L & U). destruct cm_bounds as (Fc & C). pose proof uu_pos as U0. pose proof uu_1e15 as U1. set (X := B2R x) in *. set (c := B2R cm) in *.
    assert (Lx : Rabs (X * c) <= bp 107).
    { rewrite Rabs_mult. rewrite (Rabs_right c) by lra. replace (bp 107) with (bp 100 * bp 7) by apply bp_mul. change (bp 7) with 128. apply Rmult_le_compat; try lra. apply Rabs_pos. }
    assert (Er : Rabs (rnd (X * c) - X * c) <= uu * Rabs (X * c)).
    { destruct L as [-> |L]; [rewrite Rmult_0_l, rnd_0, Rminus_0_r, Rabs_R0; lra|]. apply rnd_rel. rewrite Rabs_mult, (Rabs_right c) by lra. apply Rle_trans with (bp (-100)); [apply bpow_le; lia|]. rewrite <- (Rmult_1_r (bp (-100))). apply Rmult_le_compat; try lra. apply bpow_ge_0. }
    pose proof (Bmult_correct 53 1024 Hprec64 Hmax64 mode_NE x cm) as H. rewrite fexp64 in H. change (round_mode mode_NE) with ZnearestE in H.
    rewrite Rlt_bool_true in H.
    2: { eapply Rle_lt_trans; [apply rnd_le_2|]. fold X c. apply Rle_lt_trans with (bp 108); [replace (bp 108) with (2 * bp 107) by (rewrite <- bp_1, bp_mul; reflexivity); lra|apply bpow_lt; lia]. }
    destruct H as (V & Ff & _). rewrite F, Fc in Ff. fold (fmul x cm) in V, Ff. fold X c in V. change (fmul x cm) with (in_cm x) in *. split; [exact Ff|]. split; [exact V|]. rewrite V. rewrite Rabs_mult, (Rabs_right c) in Er by lra. pose proof (Rabs_pos X) as Xp.
    assert (Ec : Rabs (X * c - 100 * X) <= 800 * uu * Rabs X).
    { replace (X * c - 100 * X) with (X * (c - 100)) by ring. rewrite Rabs_mult. rewrite (Rmult_comm (800 * uu)). apply Rmult_le_compat_l; [exact Xp|]. apply Rabs_le. lra. }
    assert (Ur : uu * (Rabs X * c) <= 101 * uu * Rabs X) by (replace (uu * (Rabs X * c)) with (c * (uu * Rabs X)) by ring; replace (101 * uu * Rabs X) with (101 * (uu * Rabs X)) by ring; apply Rmult_le_compat_r; [apply Rmult_le_pos; lra|lra]).
    assert (T : Rabs (rnd (X * c) - 100 * X) <= 901 * uu * Rabs X).
    { replace (rnd (X * c) - 100 * X) with ((rnd (X * c) - X * c) + (X * c - 100 * X)) by ring. eapply Rle_trans; [apply Rabs_triang|]. lra. }
    assert (Z : uu * Rabs X <= / 10000 * Rabs X) by (apply Rmult_le_compat_r; lra). split; [nra|].
    replace (rnd (X * c)) with ((rnd (X * c) - 100 * X) + 100 * X) by ring. eapply Rle_trans; [apply Rabs_triang|]. rewrite (Rabs_mult 100), (Rabs_right 100) by lra. lra.
  Qed.
  Lemma in_cm_mono x y : moderate x -> moderate y -> B2R x <= B2R y -> B2R (in_cm x) <= B2R (in_cm y).
  Proof.
    intros Mx My L. destruct (in_cm_ok x Mx) as (_ & -> & _). destruct (in_cm_ok y My) as (_ & -> & _). apply rnd_mono. destruct cm_bounds as (_ & C). pose proof uu_1e15. apply Rmult_le_compat_r; lra.
  Qed.
  Lemma in_cm_eq x y : moderate x -> moderate y -> B2R x = B2R y -> B2R (in_cm x) = B2R (in_cm y).
  Proof. intros Mx My E. destruct (in_cm_ok x Mx) as (_ & -> & _). destruct (in_cm_ok y My) as (_ & -> & _). now rewrite E. Qed.
  Lemma in_cm_neq x y : moderate x -> moderate y -> 0 <= B2R x -> B2R x * (1 + / 2 ^ 40) < B2R y -> B2R (in_cm x) < B2R (in_cm y).
  Proof.
    intros Mx My P L. destruct (in_cm_ok x Mx) as (_ & _ & Ex & _). destruct (in_cm_ok y My) as (_ & _ & Ey & _).
    pose proof uu_pos as U0. assert (G : / 2 ^ 40 = 8192 * uu). { rewrite uu_val. rewrite (pow_IZR 2 40). change (Z.of_nat 40) with 40%Z. change (2 ^ 53)%Z with (8192 * 2 ^ 40)%Z. rewrite mult_IZR. field. apply not_0_IZR. discriminate. }
    rewrite G in L. pose proof uu_1e15 as U1. assert (Py : 0 < B2R y) by (assert (0 <= B2R x * (8192 * uu)) by (apply Rmult_le_pos; lra); lra).
    rewrite (Rabs_right (B2R x)) in Ex by lra. rewrite (Rabs_right (B2R y)) in Ey by lra. apply Rabs_le_inv in Ex, Ey.
    assert (uu * B2R x <= / 1000000 * B2R x) by (apply Rmult_le_compat_r; lra). assert (0 <= uu * B2R x) by (apply Rmult_le_pos; lra).
    assert (A : (B2R x + 8192 * (uu * B2R x)) * (100 - 1000 * uu) <= B2R y * (100 - 1000 * uu)) by (apply Rmult_le_compat_r; lra).
    assert (B0 : uu * (uu * B2R x) <= / 1000000 * (uu * B2R x)) by (apply Rmult_le_compat_r; lra).
    assert (C : (B2R x + 8192 * (uu * B2R x)) * (100 - 1000 * uu) = 100 * B2R x + 818200 * (uu * B2R x) - 8192000 * (uu * (uu * B2R x))) by ring.
    destruct (Req_dec (B2R x) 0) as [Z|Z]; [rewrite Z in *; assert (uu * B2R y <= / 1000000 * B2R y) by (apply Rmult_le_compat_r; lra); lra|].
    assert (0 < uu * B2R x) by (apply Rmult_lt_0_compat; lra). lra.
  Qed.

  (** ** Boundaries *)
  Variable h : f64.
  Hypothesis Hh : moderate h.
  Hypothesis Ph : 0 < B2R h.
  Definition side : f64 := in_cm h.
  Definition half : f64 := fdiv side (f64_of_Z 2).
  Lemma side_ok : fin side /\ Rabs (B2R side - 100 * B2R h) <= 1000 * uu * B2R h /\ 0 < B2R side <= bp 107.
  Proof.
    destruct (in_cm_ok h Hh) as (F & _ & E & U). destruct (moderate_bounds h Hh) as (_ & _ & M). rewrite (Rabs_right (B2R h)) in * by lra. split; [exact F|]. split; [exact E|]. pose proof uu_1e15 as U1. apply Rabs_le_inv in E.
    assert (uu * B2R h <= / 1000000 * B2R h) by (apply Rmult_le_compat_r; lra). unfold side. split; [lra|]. apply Rabs_le_inv in U. replace (bp 107) with (bp 100 * bp 7) by apply bp_mul. change (bp 7) with 128. lra.
  Qed.
  Lemma half_ok : fin half /\ Rabs (B2R half - 50 * B2R h) <= 560 * uu * B2R h /\ 0 < B2R half <= bp 107.
  Proof.
    destruct side_ok as (F & E & P). pose proof uu_pos as U0. pose proof uu_1e15 as U1. destruct (moderate_bounds h Hh) as (_ & Lh & _). rewrite (Rabs_right (B2R h)) in Lh by lra. destruct Lh as [Lh|Lh]; [lra|].
    destruct (f64_of_Z_exact 2 ltac:(lia)) as [F2 V2]. unfold half. set (s := B2R side) in *. assert (UH : uu * B2R h <= / 1000000 * B2R h) by (apply Rmult_le_compat_r; lra). apply Rabs_le_inv in E.
    assert (Ls : bp (-100) <= s / 2) by lra.
    assert (Er : Rabs (rnd (s / 2) - s / 2) <= uu * (s / 2)). { rewrite <- (Rabs_right (s / 2)) at 3 by lra. apply rnd_rel. rewrite Rabs_right by lra. apply Rle_trans with (bp (-100)); [apply bpow_le; lia|exact Ls]. }
    pose proof (Bdiv_correct 53 1024 Hprec64 Hmax64 mode_NE side (f64_of_Z 2) ltac:(rewrite V2; lra)) as H. rewrite fexp64 in H. change (round_mode mode_NE) with ZnearestE in H. rewrite V2 in H. fold s in H.
    rewrite Rlt_bool_true in H.
    2: { eapply Rle_lt_trans; [apply rnd_le_2|]. rewrite Rabs_right by lra. apply Rle_lt_trans with (bp 107); [lra|apply bpow_lt; lia]. }
    destruct H as (V & Ff & _). fold (fdiv side (f64_of_Z 2)) in V, Ff. split; [unfold fin; rewrite Ff; exact F|]. rewrite V. apply Rabs_le_inv in Er.
    assert (US : uu * (s / 2) <= 51 * (uu * B2R h)) by (replace (51 * (uu * B2R h)) with (uu * (51 * B2R h)) by ring; apply Rmult_le_compat_l; lra).
    split; [apply Rabs_le; lra|]. split; lra.
  Qed.
  Definition size (x : f64) : R := Rabs (B2R x) + B2R h.
  (** Coordinates of any size up to 2^100. *)
  Lemma in_cm_weak x : is_finite x = true -> Rabs (B2R x) <= bp 100 -> fin (in_cm x) /\ B2R (in_cm x) = rnd (B2R x * B2R cm) /\
    Rabs (B2R (in_cm x) - 100 * B2R x) <= 1000 * uu * Rabs (B2R x) + uu * B2R h /\ Rabs (B2R (in_cm x)) <= 101 * Rabs (B2R x) + B2R h.
  Proof.
    intros F U. destruct cm_bounds as (Fc & C). pose proof uu_pos as U0. pose proof uu_1e15 as U1. destruct (moderate_bounds h Hh) as (_ & Lh & _). rewrite (Rabs_right (B2R h)) in Lh by lra. destruct Lh as [Lh|Lh]; [lra|]. set (X := B2R x) in *. set (c := B2R cm) in *.
    assert (Tiny : bp (-1075) <= uu * B2R h). { apply Rle_trans with (uu * bp (-100)); [|apply Rmult_le_compat_l; lra]. replace uu with (bp (-53)) by (rewrite uu_val; reflexivity). rewrite bp_mul. apply bpow_le. lia. }
    assert (Lx : Rabs (X * c) <= bp 107).
    { rewrite Rabs_mult. rewrite (Rabs_right c) by lra. replace (bp 107) with (bp 100 * bp 7) by apply bp_mul. change (bp 7) with 128. apply Rmult_le_compat; try lra. apply Rabs_pos. }
    assert (Er : Rabs (rnd (X * c) - X * c) <= uu * Rabs (X * c) + bp (-1075)).
    { destruct (Rle_lt_dec (bp (-1022)) (Rabs (X * c))) as [L|L].
      - pose proof (rnd_rel (X * c) L). pose proof (bpow_gt_0 radix2 (-1075)). lra.
      - assert (E : Rabs (rnd (X * c) - X * c) <= / 2 * ulp radix2 (FLT_exp (-1074) 53) (X * c)) by (apply error_le_half_ulp; typeclasses eauto).
        rewrite (ulp_FLT_small radix2 (-1074) 53) in E by (exact (eq_refl : (0 < 53)%Z) || (eapply Rlt_le_trans; [exact L|apply bpow_le; lia])). replace (/ 2 * bp (-1074)) with (bp (-1075)) in E by (change (/ 2) with (bp (-1)); apply (bpow_plus radix2 (-1) (-1074))).
        pose proof (Rmult_le_pos uu (Rabs (X * c)) (Rlt_le _ _ U0) (Rabs_pos _)). lra. }
    pose proof (Bmult_correct 53 1024 Hprec64 Hmax64 mode_NE x cm) as H. rewrite fexp64 in H. change (round_mode mode_NE) with ZnearestE in H.
    rewrite Rlt_bool_true in H.
    2: { eapply Rle_lt_trans; [apply rnd_le_2|]. fold X c. apply Rle_lt_trans with (bp 108); [replace (bp 108) with (2 * bp 107) by (rewrite <- bp_1, bp_mul; reflexivity); lra|apply bpow_lt; lia]. }
    destruct H as (V & Ff & _). rewrite F, Fc in Ff. fold (fmul x cm) in V, Ff. fold X c in V. change (fmul x cm) with (in_cm x) in *. split; [exact Ff|]. split; [exact V|]. rewrite V. rewrite Rabs_mult, (Rabs_right c) in Er by lra. pose proof (Rabs_pos X) as Xp.
    assert (Ec : Rabs (X * c - 100 * X) <= 800 * uu * Rabs X).
    { replace (X * c - 100 * X) with (X * (c - 100)) by ring. rewrite Rabs_mult. rewrite (Rmult_comm (800 * uu)). apply Rmult_le_compat_l; [exact Xp|]. apply Rabs_le. lra. }
    assert (Ur : uu * (Rabs X * c) <= 101 * uu * Rabs X) by (replace (uu * (Rabs X * c)) with (c * (uu * Rabs X)) by ring; replace (101 * uu * Rabs X) with (101 * (uu * Rabs X)) by ring; apply Rmult_le_compat_r; [apply Rmult_le_pos; lra|lra]).
    assert (T : Rabs (rnd (X * c) - 100 * X) <= 901 * uu * Rabs X + uu * B2R h).
    { replace (rnd (X * c) - 100 * X) with ((rnd (X * c) - X * c) + (X * c - 100 * X)) by ring. eapply Rle_trans; [apply Rabs_triang|]. lra. }
    assert (Z : uu * Rabs X <= / 10000 * Rabs X) by (apply Rmult_le_compat_r; lra). assert (Zh : uu * B2R h <= / 10000 * B2R h) by (apply Rmult_le_compat_r; lra). split; [nra|].
    replace (rnd (X * c)) with ((rnd (X * c) - 100 * X) + 100 * X) by ring. eapply Rle_trans; [apply Rabs_triang|]. rewrite (Rabs_mult 100), (Rabs_right 100) by lra. lra.
  Qed.
  Lemma rel_add (x y : f64) : Rabs (rnd (B2R x + B2R y) - (B2R x + B2R y)) <= uu * Rabs (B2R x + B2R y).
  Proof. apply add_rel; apply B2R_fmt. Qed.
  Definition bounded (x : f64) : Prop := is_finite x = true /\ Rabs (B2R x) <= bp 100.
  Lemma bp_107 : bp 107 <= bp 200 /\ 110 * bp 100 <= bp 107.
  Proof. split; [apply bpow_le; lia|]. replace (bp 107) with (bp 100 * bp 7) by apply bp_mul. change (bp 7) with 128. pose proof (bpow_gt_0 radix2 100). lra. Qed.
  Lemma lower_ok x : bounded x -> plain64 (fsub (in_cm x) half) /\ B2R (fsub (in_cm x) half) = rnd (B2R (in_cm x) - B2R half) /\
    Rabs (B2R (fsub (in_cm x) half) - 100 * (B2R x - B2R h / 2)) <= 1200 * (uu * size x) /\ Rabs (B2R (fsub (in_cm x) half)) <= bp 109.
  Proof.
    intro M. destruct (in_cm_weak x (proj1 M) (proj2 M)) as (F & _ & E & U). destruct half_ok as (Fh & Eh & Bh). pose proof (proj2 M) as Mx. destruct (moderate_bounds h Hh) as (_ & _ & Mh'). rewrite (Rabs_right (B2R h)) in Mh' by lra. destruct bp_107 as [B1 B2]. destruct (moderate_bounds h Hh) as (_ & _ & Mh). rewrite (Rabs_right (B2R h)) in Mh by lra.
    destruct (fsub_plain (in_cm x) half F Fh ltac:(lra) ltac:(lra) ltac:(lra)) as [P V]. split; [exact P|]. split; [exact V|]. rewrite V.
    pose proof (rel_add (in_cm x) (Bopp half)) as A. rewrite B2R_Bopp in A. change (B2R (in_cm x) + - B2R half) with (B2R (in_cm x) - B2R half) in A. pose proof uu_pos as U0. pose proof uu_1e15 as U1.
    set (a := B2R (in_cm x)) in *. set (d := B2R half) in *. unfold size. pose proof (Rabs_pos (B2R x)) as Xp. set (X := Rabs (B2R x)) in *.
    assert (Z1 : uu * X <= / 1000000 * X) by (apply Rmult_le_compat_r; lra). assert (Z2 : uu * B2R h <= / 1000000 * B2R h) by (apply Rmult_le_compat_r; lra).
    assert (Ad : Rabs (a - d) <= 101 * X + 52 * B2R h). { eapply Rle_trans; [apply Rabs_triang|]. rewrite Rabs_Ropp, (Rabs_right d) by lra. apply Rabs_le_inv in Eh. lra. }
    assert (Ar : uu * Rabs (a - d) <= 101 * (uu * X) + 52 * (uu * B2R h)). { replace (101 * (uu * X) + 52 * (uu * B2R h)) with (uu * (101 * X + 52 * B2R h)) by ring. apply Rmult_le_compat_l; lra. }
    assert (Q1 : 0 <= uu * X) by (apply Rmult_le_pos; lra). assert (Q2 : 0 <= uu * B2R h) by (apply Rmult_le_pos; lra). split.
    - replace (rnd (a - d) - 100 * (B2R x - B2R h / 2)) with ((rnd (a - d) - (a - d)) + ((a - 100 * B2R x) + - (d - 50 * B2R h))) by field.
      eapply Rle_trans; [apply Rabs_triang|]. eapply Rle_trans; [apply Rplus_le_compat_l, Rabs_triang|]. rewrite Rabs_Ropp. replace (1200 * (uu * (X + B2R h))) with (1200 * (uu * X) + 1200 * (uu * B2R h)) by ring. lra.
    - replace (bp 109) with (bp 107 * bp 2) by apply bp_mul. change (bp 2) with 4. eapply Rle_trans; [apply rnd_le_2|]. lra.
  Qed.
  Lemma upper_ok x : bounded x -> plain64 (fadd (in_cm x) half) /\ Rabs (B2R (fadd (in_cm x) half) - 100 * (B2R x + B2R h / 2)) <= 1200 * (uu * size x).
  Proof.
    intro M. destruct (in_cm_weak x (proj1 M) (proj2 M)) as (F & _ & E & U). destruct half_ok as (Fh & Eh & Bh). pose proof (proj2 M) as Mx. destruct (moderate_bounds h Hh) as (_ & _ & Mh'). rewrite (Rabs_right (B2R h)) in Mh' by lra. destruct bp_107 as [B1 B2].
    destruct (fadd_plain (in_cm x) half F Fh ltac:(lra) ltac:(lra) ltac:(lra)) as [P V]. split; [exact P|]. rewrite V.
    pose proof (rel_add (in_cm x) half) as A. pose proof uu_pos as U0. pose proof uu_1e15 as U1.
    set (a := B2R (in_cm x)) in *. set (d := B2R half) in *. unfold size. pose proof (Rabs_pos (B2R x)) as Xp. set (X := Rabs (B2R x)) in *.
    assert (Z2 : uu * B2R h <= / 1000000 * B2R h) by (apply Rmult_le_compat_r; lra).
    assert (Ad : Rabs (a + d) <= 101 * X + 52 * B2R h). { eapply Rle_trans; [apply Rabs_triang|]. rewrite (Rabs_right d) by lra. apply Rabs_le_inv in Eh. lra. }
    assert (Ar : uu * Rabs (a + d) <= 101 * (uu * X) + 52 * (uu * B2R h)). { replace (101 * (uu * X) + 52 * (uu * B2R h)) with (uu * (101 * X + 52 * B2R h)) by ring. apply Rmult_le_compat_l; lra. }
    assert (Q1 : 0 <= uu * X) by (apply Rmult_le_pos; lra). assert (Q2 : 0 <= uu * B2R h) by (apply Rmult_le_pos; lra).
    replace (rnd (a + d) - 100 * (B2R x + B2R h / 2)) with ((rnd (a + d) - (a + d)) + ((a - 100 * B2R x) + (d - 50 * B2R h))) by field.
    eapply Rle_trans; [apply Rabs_triang|]. eapply Rle_trans; [apply Rplus_le_compat_l, Rabs_triang|]. replace (1200 * (uu * (X + B2R h))) with (1200 * (uu * X) + 1200 * (uu * B2R h)) by ring. lra.
  Qed.
  Lemma last_ok x : bounded x -> plain64 (fadd (fsub (in_cm x) half) side) /\ B2R (fadd (fsub (in_cm x) half) side) = rnd (rnd (B2R (in_cm x) - B2R half) + B2R side) /\
    Rabs (B2R (fadd (fsub (in_cm x) half) side) - 100 * (B2R x + B2R h / 2)) <= 2400 * (uu * size x).
  Proof.
    intro M. destruct (lower_ok x M) as ([F _] & V0 & E & L). destruct side_ok as (Fs & Es & Bs). assert (B9 : bp 109 <= bp 200) by (apply bpow_le; lia). destruct bp_107 as [B1 _].
    destruct (fadd_plain (fsub (in_cm x) half) side F Fs ltac:(lra) ltac:(lra) ltac:(lra)) as [P V]. split; [exact P|]. split; [rewrite V, V0; reflexivity|]. rewrite V.
    pose proof (rel_add (fsub (in_cm x) half) side) as A. pose proof uu_pos as U0. pose proof uu_1e15 as U1.
    set (a := B2R (fsub (in_cm x) half)) in *. set (d := B2R side) in *. unfold size in *. pose proof (Rabs_pos (B2R x)) as Xp. assert (Xs : Rabs (B2R x - B2R h / 2) <= Rabs (B2R x) + B2R h / 2) by (eapply Rle_trans; [apply Rabs_triang|]; rewrite Rabs_Ropp, (Rabs_right (B2R h / 2)); lra). set (X := Rabs (B2R x)) in *.
    assert (Z1 : uu * (X + B2R h) <= / 1000000 * (X + B2R h)) by (apply Rmult_le_compat_r; lra). assert (Z2 : uu * B2R h <= uu * (X + B2R h)) by (apply Rmult_le_compat_l; lra).
    assert (Aa : Rabs a <= 101 * X + 52 * B2R h).
    { replace a with ((a - 100 * (B2R x - B2R h / 2)) + 100 * (B2R x - B2R h / 2)) by ring. eapply Rle_trans; [apply Rabs_triang|]. rewrite (Rabs_mult 100), (Rabs_right 100) by lra. lra. }
    assert (Ad : Rabs (a + d) <= 160 * (X + B2R h)). { eapply Rle_trans; [apply Rabs_triang|]. rewrite (Rabs_right d) by lra. apply Rabs_le_inv in Es. lra. }
    assert (Ar : uu * Rabs (a + d) <= 160 * (uu * (X + B2R h))). { replace (160 * (uu * (X + B2R h))) with (uu * (160 * (X + B2R h))) by ring. apply Rmult_le_compat_l; lra. }
    replace (rnd (a + d) - 100 * (B2R x + B2R h / 2)) with ((rnd (a + d) - (a + d)) + ((a - 100 * (B2R x - B2R h / 2)) + (d - 100 * B2R h))) by field.
    assert (Q2 : 0 <= uu * B2R h) by (apply Rmult_le_pos; lra). change (B2R side) with d in Es.
    eapply Rle_trans; [apply Rabs_triang|]. eapply Rle_trans; [apply Rplus_le_compat_l, Rabs_triang|]. lra.
  Qed.
End Lengths.
