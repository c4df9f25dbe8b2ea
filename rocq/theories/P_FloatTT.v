(** C106: the tabulated T-T spectrum in the arithmetic the computer uses (binary64). *)
From Coq Require Import Ascii String ZArith Bool Reals Lra Lia List Sorted.
From Flocq Require Import Core.Core IEEE754.BinarySingleNaN.
From Verif Require Import Base Reactions SpectraData FloatComp FloatCompProofs FloatCompAcc FloatSource SpecFloatSource FloatSourceProofs FloatSpace FloatSpaceProofs FloatProfile FloatProfileProofs.
From Verif Require Import FloatReactivity FloatReactivityProofs Energy SpecEnergy EnergyProofs FloatEnergy SpecFloatEnergy FloatEnergyProofs FloatSpectrumProofs P_FloatEnergy.
From Verif Require Import Mcnp SpecMcnp FloatMcnp SpecFloatMcnp FloatMcnpProofs P_FloatMcnp FloatTT SpecFloatTT FloatTTProofs.
Import ListNotations.
Open Scope R_scope.
Local Notation bp := (bpow radix2).

Section Shipped.
  Variables (mev per_mev : f64) (npsum : list f64 -> f64) (rows : list (f64 * list f64)).
  Hypotheses (Hm : factor_ok mev 1000) (Hp : factor_ok per_mev (/ 1000)) (Hs : forall l, sums l (npsum l)) (Hr : read_rows rows).
  Let d := make_tt64 mev per_mev rows.
  Lemma limited_exists T : is_nan T = false -> exists t, limited T t.
  Proof.
    intro NN. destruct T as [s|[|]| |s m e Hb]; try discriminate NN.
    - eexists. left. split; [reflexivity|reflexivity].
    - exists 1. right. right. split; reflexivity.
    - exists 20. right. left. split; reflexivity.
    - eexists. left. split; [reflexivity|reflexivity].
  Qed.
  Lemma nth_500 {A} (f : nat -> A) k : (k < 500)%nat -> nth_error (map f (seq 0 500)) k = Some (f k).
  Proof. intro H. rewrite nth_error_map, (nth_error_nth' _ 0%nat) by now rewrite seq_length. now rewrite seq_nth. Qed.
  Lemma spectrum_near_table T t : is_nan T = false -> limited T t ->
    exists e p j t', data_spectrum64 npsum d TT T = Ok (e, p) /\ (j < 39)%nat /\ table_temperature j <= t' <= table_temperature (S j) /\
      Rabs (t' - t) <= 256 / 2 ^ 53 /\ near_table j t' e p.
  Proof.
    intros NN L. pose proof uu_pos as U0. pose proof uu_1e15 as U. destruct (held_ok T t NN L) as (F & V & B).
    destruct (at_temperature mev per_mev rows Hm Hp Hr (held T) F ltac:(rewrite V; exact B)) as (j & t' & c & q & Hj & Ht & Et & Hc & Eq & Hq). fold d in Eq.
    pose proof (assembled500 npsum (ee64 mev rows) q EE (interpolated j t') c 10610 17 Hs) as A.
    destruct A as (p & E & I0 & P & J).
    - intros i Hi. destruct (ee_ok mev rows Hm Hr i Hi) as (Fi & _ & Bi). split; [exact Fi|]. pose proof (ee_abs mev rows Hm Hr i Hi) as Ai. apply Rabs_le_inv in Ai. assert (0 <= uu * EE i <= / 1000000 * EE i) by (split; [apply Rmult_le_pos; lra|apply Rmult_le_compat_r; lra]).
      pose proof (bpow_le radix2 20 100 ltac:(lia)) as Q. change (bp 20) with 1048576 in Q. apply Rabs_le. lra.
    - intros i Hi. destruct (ee_gap mev rows Hm Hr i Hi) as (A1 & A2 & A3). split; [exact A3|]. split; [exact A2|exact A1].
    - exact Hq.
    - exact Hc.
    - lra.
    - exists (map (ee64 mev rows) (seq 0 500)), (map p (seq 0 500)), j, t'. split; [|split; [exact Hj|split; [exact Ht|split]]].
      + unfold data_spectrum64, d. rewrite (call_ok mev per_mev rows Hm Hr T t NN L). cbn [bind fst snd]. fold d. transitivity (prepare_energy_pdf64 npsum (map (ee64 mev rows) (seq 0 500)) (map q (seq 0 500))); [|exact E].
        unfold d in *. rewrite <- Eq. now rewrite (energy_seq mev per_mev rows Hr).
      + rewrite <- V. eapply Rle_trans; [exact Et|]. rewrite uu_p. lra.
      + split; [now rewrite map_length, seq_length|]. split; [now rewrite map_length, seq_length|]. split; [|split].
        * intros i Hi. exists (ee64 mev rows i), (p i). split; [now apply nth_500|]. split; [now apply nth_500|]. destruct (ee_ok mev rows Hm Hr i Hi) as (Fi & _ & Bi). split; [exact Fi|].
          rewrite energies_seq, nth_map_seq by exact Hi. split.
          { eapply Rle_trans; [apply (ee_abs mev rows Hm Hr i Hi)|]. replace (11 / 2 ^ 53) with (11 * uu) by (rewrite uu_p; reflexivity). assert (0 <= uu * EE i) by (apply Rmult_le_pos; lra). lra. }
          destruct (P i Hi) as (Fp & Pp & Cp). split; [exact Fp|]. split; [exact Pp|]. apply rclose_abs in Cp; [|lra|lra].
          assert (ED : table_density j t' i = interpolated j t' i / integral (map (fun i => (EE i, interpolated j t' i)) (seq 0 500))).
          { unfold table_density. now rewrite energies_seq, combine_map_map. }
          rewrite ED. replace (12000 / 2 ^ 53) with (12000 * uu) by (rewrite uu_p; reflexivity). set (Dn := _ / _) in *. assert (0 < Dn) by (unfold Dn; apply Rdiv_lt_0_compat; [apply Hq; exact Hi|exact I0]).
          assert (0 <= uu * Dn) by (apply Rmult_le_pos; lra). lra.
        * apply sorted_adjacent. intros i a b Ha Hb. assert (Hi : (S i < 500)%nat). { assert (Q : nth_error (map B2R (map (ee64 mev rows) (seq 0 500))) (S i) <> None) by congruence. apply nth_error_Some in Q. now rewrite !map_length, seq_length in Q. }
          rewrite nth_error_map, nth_500 in Ha, Hb by lia. cbn [option_map] in Ha, Hb. injection Ha as <-. injection Hb as <-. apply (ee_increasing mev rows Hm Hr); lia.
        * apply rclose_abs in J; [|lra|lra]. unfold area. eapply Rle_trans; [exact J|]. rewrite <- uu_p. lra.
  Qed.
End Shipped.

(** At every temperature that is a number (also an infinite one), the T-T spectrum computed from the shipped file is the file's table, linearly
    interpolated in temperature and normalised, to 12000 roundings (1.4e-12), at a temperature at most 256 roundings (3e-14 keV) away from the given one,
    limited to 1-20 keV. *)
Theorem C106_near_table : forall mev per_mev npsum rows T t,
  factor_ok mev 1000 -> factor_ok per_mev (/ 1000) -> (forall l, sums l (npsum l)) -> read_rows rows ->
  is_nan T = false -> limited T t ->
  exists e p j t', data_spectrum64 npsum (make_tt64 mev per_mev rows) TT T = Ok (e, p) /\
    (j < 39)%nat /\ table_temperature j <= t' <= table_temperature (S j) /\ Rabs (t' - t) <= 256 / 2 ^ 53 /\ near_table j t' e p.
Proof. intros mev per_mev npsum rows T t Hm Hp Hs Hr. exact (spectrum_near_table mev per_mev npsum rows Hm Hp Hs Hr T t). Qed.
Print Assumptions C106_near_table.

(** A temperature outside the table gives exactly the spectrum at its end. *)
Theorem C106_outside : forall npsum d T t, limited T t -> t <> B2R T \/ is_finite T = false ->
  data_spectrum64 npsum d TT T = data_spectrum64 npsum d TT (if Rlt_bool t 2 then f64_of_Z 1 else f64_of_Z 20).
Proof.
  intros npsum d T t L O. change (f64_of_Z 1) with f1. fold f20. destruct f1_value as [F1 V1]. destruct f20_value as [F2 V2].
  assert (K1 : held f1 = f1). { unfold held, clip64. assert (Bltb f1 f1 = false) as -> by (apply ltb_val_f; [assumption..|lra]). cbn [andb]. assert (Bltb f20 f1 = false) as -> by (apply ltb_val_f; [assumption..|lra]). reflexivity. }
  assert (K2 : held f20 = f20). { unfold held, clip64. assert (Bltb f20 f20 = false) as -> by (apply ltb_val_f; [assumption..|lra]). rewrite andb_false_r. assert (Bltb f20 f1 = false) as -> by (apply ltb_val_f; [assumption..|lra]). reflexivity. }
  enough (K : held T = if Rlt_bool t 2 then f1 else f20).
  { assert (K' : held (if Rlt_bool t 2 then f1 else f20) = if Rlt_bool t 2 then f1 else f20) by (destruct (Rlt_bool t 2); assumption).
    unfold data_spectrum64, tt_call64. fold f20. fold (held T). fold (held (if Rlt_bool t 2 then f1 else f20)). now rewrite K, K'. }
  destruct L as [[F E]|[[-> E]|[-> E]]].
  - destruct O as [O|O]; [|congruence]. destruct (Rle_lt_dec 1 (B2R T)) as [A|A].
    + destruct (Rle_lt_dec (B2R T) 20) as [C|C]; [rewrite Rmax_left, Rmin_left in E by lra; contradiction|]. rewrite Rmax_left, Rmin_right in E by lra. subst t. rewrite Rlt_bool_false by lra.
      unfold held, clip64. assert (Bltb T f20 = false) as -> by (apply ltb_val_f; [assumption..|lra]). rewrite andb_false_r. assert (Bltb T f1 = false) as -> by (apply ltb_val_f; [assumption..|lra]). assert (Bltb f20 T = true) as -> by (apply ltb_val; [assumption..|lra]). reflexivity.
    + rewrite Rmax_right, Rmin_left in E by lra. subst t. rewrite Rlt_bool_true by lra.
      unfold held, clip64. assert (Bltb f1 T = false) as -> by (apply ltb_val_f; [assumption..|lra]). cbn [andb]. assert (Bltb T f1 = true) as -> by (apply ltb_val; [assumption..|lra]). assert (Bltb f20 f1 = false) as -> by (apply ltb_val_f; [assumption..|lra]). reflexivity.
  - subst t. rewrite Rlt_bool_false by lra. reflexivity.
  - subst t. rewrite Rlt_bool_true by lra. reflexivity.
Qed.
Print Assumptions C106_outside.

(** NaN is an error (scipy's bounds check), whatever the file. *)
Theorem C106_not_a_number : forall npsum mev per_mev rows, data_spectrum64 npsum (make_tt64 mev per_mev rows) TT B754_nan = Err EValue.
Proof.
  intros. unfold data_spectrum64, tt_call64. change (Bltb f1 B754_nan && Bltb B754_nan (f64_of_Z 20)) with false. cbv iota. change (clip64 f1 (f64_of_Z 20) B754_nan) with (B754_nan : f64).
  unfold inside64 at 2. assert (Bleb (hd f0 (tt_temps64 (make_tt64 mev per_mev rows))) B754_nan = false) as -> by (unfold Bleb, SpecFloat.SFleb; destruct (hd _ _) as [[]|[]| |[]]; reflexivity). rewrite andb_false_r. reflexivity.
Qed.
Print Assumptions C106_not_a_number.

(** Every method gives the table's spectrum for T-T; the two reactions without neutrons have no spectrum; for the others see C103. *)
Theorem C106_methods : forall spow vexp npsum d T meth,
  energy_spectrum_full64 spow vexp npsum d T TT meth = Some (data_spectrum64 npsum d TT T) /\
  (forall r, r = DDp \/ r = DHe3 -> energy_spectrum_full64 spow vexp npsum d T r meth = match meth with SAuto => None | _ => Some (Err ENotImplemented) end) /\
  (forall r, r = DT \/ r = DDn -> energy_spectrum_full64 spow vexp npsum d T r meth = energy_spectrum64 spow vexp npsum T r meth).
Proof.
  intros. split; [destruct meth; reflexivity|]. split; intros r [-> | ->]; destruct meth; reflexivity.
Qed.
Print Assumptions C106_methods.

(** The shipped table is a table as C104 and C105 assume it, so their files can be written. *)
Theorem C106_table_ok : forall mev per_mev npsum rows,
  factor_ok mev 1000 -> factor_ok per_mev (/ 1000) -> (forall l, sums l (npsum l)) -> read_rows rows ->
  table_ok (data_spectrum64 npsum (make_tt64 mev per_mev rows) TT).
Proof.
  intros mev per_mev npsum rows Hm Hp Hs Hr T FT _. pose proof (not_nan T FT) as NN. destruct (limited_exists T NN) as [t L].
  destruct (C106_near_table mev per_mev npsum rows T t Hm Hp Hs Hr NN L) as (e & p & j & t' & E & _ & _ & _ & (Le & Lp & K & _)). exists e, p. split; [exact E|].
  split; [intros ->; discriminate Le|]. split; [intros ->; discriminate Lp|].
  assert (Pos : forall x : f64, is_finite x = true -> 0 < B2R x -> unsigned x).
  { intros x F P. apply nn_plain; [split; [exact F|lra]|lra]. }
  split; apply Forall_forall; intros x Hx; apply In_nth_error in Hx; destruct Hx as [i Hi].
  - assert (H5 : (i < 500)%nat) by (rewrite <- Le; apply nth_error_Some; congruence). destruct (K i H5) as (E1 & D1 & A1 & _ & F1 & B1 & _). rewrite Hi in A1. injection A1 as <-.
    rewrite energies_seq, nth_map_seq in B1 by exact H5. destruct (ee_ok mev rows Hm Hr i H5) as (_ & _ & Bi). apply Rabs_le_inv in B1. assert (0 <= 11 / 2 ^ 53 * EE i <= / 1000 * EE i) by (split; [apply Rmult_le_pos; lra|apply Rmult_le_compat_r; lra]).
    split; [apply Pos; [exact F1|lra]|]. split; [exact F1|]. right. rewrite !two_bpow, Rabs_pos_eq by lra. pose proof (bpow_le radix2 20 100 ltac:(lia)) as Q. change (bp 20) with 1048576 in Q. pose proof (bpow_le radix2 (-100) (-10) ltac:(lia)) as Q'. change (bp (-10)) with (/ 1024) in Q'. lra.
  - assert (H5 : (i < 500)%nat) by (rewrite <- Lp; apply nth_error_Some; congruence). destruct (K i H5) as (E1 & D1 & _ & A2 & _ & _ & F2 & P2 & _). rewrite Hi in A2. injection A2 as <-. now apply Pos.
Qed.
Print Assumptions C106_table_ok.

(** ** The hypotheses are met *)
Lemma nearest_exists d : Rabs (decimal d) <= 100 -> exists x, read_as x d.
Proof.
  intro H. set (r := rnd (decimal d)). assert (Fr : fmt r) by (apply generic_format_round; typeclasses eauto).
  exists (binary_normalize 53 1024 Hprec64 Hmax64 mode_NE (Ztrunc (scaled_mantissa radix2 (FLT_exp (-1074) 53) r)) (cexp radix2 (FLT_exp (-1074) 53) r) false).
  pose proof (binary_normalize_correct 53 1024 Hprec64 Hmax64 mode_NE (Ztrunc (scaled_mantissa radix2 (FLT_exp (-1074) 53) r)) (cexp radix2 (FLT_exp (-1074) 53) r) false) as C.
  set (ff := F2R (Float radix2 (Ztrunc (scaled_mantissa radix2 (FLT_exp (-1074) 53) r)) (cexp radix2 (FLT_exp (-1074) 53) r))) in C.
  assert (Er : ff = r) by (symmetry; exact Fr). clearbody ff. cbv zeta in C. change (round_mode mode_NE) with ZnearestE in C. rewrite fexp64 in C.
  assert (E : rnd ff = r) by (rewrite Er; apply rnd_id; exact Fr). change (round radix2 (FLT_exp (-1074) 53) ZnearestE ff) with (rnd ff) in C. rewrite E in C.
  assert (B : Rabs r < bp 1024).
  { apply Rabs_le_inv in H. assert (M1 : rnd (IZR (-100)) <= r) by (apply rnd_mono; lra). assert (M2 : r <= rnd (IZR 100)) by (apply rnd_mono; lra). rewrite (rnd_int (-100)) in M1 by lia. rewrite (rnd_int 100) in M2 by lia.
    pose proof (bpow_le radix2 10 1024 ltac:(lia)) as Q. change (bp 10) with 1024 in Q. apply Rabs_lt. lra. }
  rewrite Rlt_bool_true in C by exact B. destruct C as (V & F & _). split; [exact F|exact V].
Qed.
Example C106_inhabited : exists mev per_mev rows npsum,
  factor_ok mev 1000 /\ factor_ok per_mev (/ 1000) /\ (forall l, sums l (npsum l)) /\ read_rows rows /\
  is_nan (f64_of_Z 15) = false /\ limited (f64_of_Z 15) 15.
Proof.
  assert (Rows : exists rows, read_rows rows).
  { assert (G : forall l : list (dec * list dec), (forall row, In row l -> Rabs (decimal (fst row)) <= 100 /\ forall x, In x (snd row) -> Rabs (decimal x) <= 100) ->
      exists rows, Forall2 (fun r r' => read_as (fst r) (fst r') /\ Forall2 read_as (snd r) (snd r')) rows l).
    { induction l as [|[e vs] l IH]; intro H; [exists []; constructor|]. destruct IH as [rows Hr]; [intros row Hin; apply H; now right|]. destruct (H (e, vs) ltac:(now left)) as [He Hv]. cbn [fst snd] in *.
      destruct (nearest_exists e He) as [x Hx]. assert (V : exists ys, Forall2 read_as ys vs).
      { clear - Hv. induction vs as [|v vs IH]; [exists []; constructor|]. destruct IH as [ys Hy]; [intros; apply Hv; now right|]. destruct (nearest_exists v (Hv v ltac:(now left))) as [y Hy']. exists (y :: ys). now constructor. }
      destruct V as [ys Hy]. exists ((x, ys) :: rows). constructor; [split; assumption|exact Hr]. }
    apply G. intros row Hin. pose proof (TTRange.row_facts row Hin) as [R1 R2]. assert (P : 0 < powerRZ 10 (-100)) by (apply powerRZ_lt; lra).
    split; [rewrite Rabs_pos_eq by lra; apply R1|]. intros x Hx. specialize (R2 x Hx). rewrite Rabs_pos_eq; lra. }
  destruct Rows as [rows Hr]. exists (f64_of_Z 1000), thousandth, rows, pysum64. destruct (f64_of_Z_exact 1000 ltac:(lia)) as [F V]. destruct (f64_of_Z_exact 15 ltac:(lia)) as [F15 V15].
  split; [split; [exact F|rewrite V, Rminus_eq_0, Rabs_R0; apply Rmult_le_pos; [lra|left; apply Rinv_0_lt_compat, pow_lt; lra]]|]. split; [exact thousandth_ok|]. split; [exact pysum64_sums|]. split; [exact Hr|]. split; [now apply not_nan|].
  left. split; [exact F15|]. rewrite V15, Rmax_left, Rmin_left by lra. reflexivity.
Qed.
