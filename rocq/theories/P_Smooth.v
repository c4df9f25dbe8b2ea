(** Property theorems C86 (the reactivity has no jumps as a function of the temperature). *)
From Coq Require Import Reals Lra Lia ZArith List Bool.
From Coquelicot Require Import Coquelicot.
From Verif Require Import Base Reactions Profile SpecReactions SpecProfile ProfileProofs XsData Reactivity SpecReactivity ReactivityProofs P_Reactivity SpecSmooth SmoothProofs.
Import ListNotations.
Open Scope R_scope.

(** The function of the temperature that is computed. *)
Lemma uses_fit_dec r meth : uses_fit r meth \/ ~ uses_fit r meth.
Proof. unfold uses_fit. destruct meth; [right; intros [_ H]; congruence| |]; destruct r; ((left; split; [unfold fitted; tauto|discriminate]) || (right; intros [[H|[H|H]] _]; discriminate)). Qed.
Lemma reactivity_fun m u r meth : physical_masses m -> 0 < amu_kg u -> 0 < keV_J u ->
  exists f, forall T, regular r meth T -> reactivity_is m u r meth T (f T) /\ 0 <= f T /\ (0 < T -> 0 < f T) /\ continuity_pt f T.
Proof.
  intros Hm Hu Hk. destruct (cross_section_full m u r Hm Hu) as (xs & s & E & M & P & Tb & Hs).
  assert (X : forall T, 0 < T -> reactivity_from_xs u [T] xs = Ok [xs_value u (reduced_mass xs) s T] /\ 0 < xs_value u (reduced_mass xs) s T).
  { intros T HT. destruct (from_xs_ok u xs s [T] Hk P Hs) as [R1 R2]; [intros ? [<-|[]]; exact HT|]. split; [exact R1|apply R2; now left]. }
  destruct (uses_fit_dec r meth) as [U|U].
  - destruct U as [Hf N]. exists (published_SI r). intros T [HL _]. assert (HL' : r = DDn -> T <= 965) by (apply HL; split; assumption).
    assert (G : bh_good r T) by (destruct (reaction_eq_dec r DDn) as [->|D]; [right; left; now apply HL'|now left]).
    destruct (fitted_point r T Hf G) as [_ Pos]. split; [|split; [|split; [auto|now apply published_continuous_all]]].
    + destruct (C15_beyond_range m u r [T] meth Hf) as (w & E' & _); [destruct meth; [congruence|now left|now right]|discriminate| |exists w; exact E'].
      intros -> y [<-|[]]. left. now apply HL'.
    + destruct (Rlt_le_dec 0 T) as [L|L]; [left; auto|]. unfold published_SI. destruct (Rle_dec T 0); lra.
  - exists (xs_value u (reduced_mass xs) s). intros T [_ HT]. specialize (HT U). destruct (X T HT) as [X1 X2]. split; [|split; [lra|split; [auto|now apply xs_value_continuous]]].
    unfold reactivity_is, reactivity. cbn [parse_reaction bind].
    assert (C : meth <> MXS -> bosch_hale_coefficients r = None) by (intro; apply not_fitted; intro; apply U; now split).
    destruct meth; [|rewrite C by discriminate|rewrite C by discriminate]; rewrite E; cbn [bind]; rewrite X1; cbn [bind]; eauto.
Qed.

(** Whatever the channel and the method, a small change of the temperature changes the reactivity little. *)
Theorem C86_no_jump : forall m u r meth T, physical_masses m -> 0 < amu_kg u -> 0 < keV_J u -> regular r meth T ->
  no_jump (regular r meth) (reactivity_is m u r meth) T.
Proof.
  intros m u r meth T Hm Hu Hk HT. destruct (reactivity_fun m u r meth Hm Hu Hk) as (f & F). destruct (F T HT) as (V & _ & _ & C).
  intros eps He. destruct (C eps He) as (del & Pd & K). exists del. split; [exact Pd|]. intros y Hy D. destruct (F y Hy) as (V' & _).
  exists (f T), (f y). split; [exact V|]. split; [exact V'|]. destruct (Req_dec y T) as [->|N]; [replace (f T - f T) with 0 by ring; now rewrite Rabs_R0|].
  apply (K y). split; [split; [exact I|congruence]|exact D].
Qed.
Print Assumptions C86_no_jump.

(** The fit falls to 0 with the temperature, so it does not jump at T = 0 either, where the library switches to the value 0. *)
Theorem C86_cold_fit : forall m u r meth, uses_fit r meth -> (forall T, T <= 0 -> reactivity_is m u r meth T 0) /\
  forall eps, 0 < eps -> exists del, 0 < del /\ forall T, 0 < T < del -> exists v, reactivity_is m u r meth T v /\ 0 < v < eps.
Proof.
  intros m u r meth [Hf N]. assert (Hm : meth = MBoschHale \/ meth = MAuto) by (destruct meth; auto; congruence).
  assert (V : forall y, y <= 100 -> reactivity_is m u r meth y (published_SI r y) /\ (0 < y -> 0 < published_SI r y)).
  { intros y Hy. destruct (C14_bosch_hale_in_range m u r [y] meth Hf Hm) as (w & E & P & _); [discriminate|intros ? [<-|[]]; exact Hy|]. split; [exists w; exact E|]. apply (P y). now left. }
  split.
  - intros T HT. assert (Z : published_SI r T = 0) by (unfold published_SI; destruct (Rle_dec T 0); [reflexivity|lra]). destruct (V T ltac:(lra)) as [V1 _]. now rewrite Z in V1.
  - intros eps He. destruct (published_cold r eps Hf He) as (del & Pd & K). exists (Rmin del 100). split; [apply Rmin_glb_lt; lra|]. intros T [HT HU].
    assert (T < del) by (eapply Rlt_le_trans; [exact HU|apply Rmin_l]). assert (T < 100) by (eapply Rlt_le_trans; [exact HU|apply Rmin_r]).
    destruct (V T ltac:(lra)) as [V1 V2]. exists (published_SI r T). split; [exact V1|]. split; [auto|]. now apply K.
Qed.
Print Assumptions C86_cold_fit.

(** The integral over the cross section also falls to 0 with the temperature (although at T = 0 it gives no number, C16). *)
Theorem C86_cold_cross_section : forall m u r meth, physical_masses m -> 0 < amu_kg u -> 0 < keV_J u -> ~ uses_fit r meth ->
  forall eps, 0 < eps -> exists del, 0 < del /\ forall T, 0 < T < del -> exists v, reactivity_is m u r meth T v /\ 0 < v < eps.
Proof.
  intros m u r meth Hm Hu Hk U eps He. destruct (cross_section_full m u r Hm Hu) as (xs & s & E & M & P & Tb & Hs).
  destruct (xs_value_cold u (reduced_mass xs) s eps Hk P He) as (del & Pd & K). exists del. split; [exact Pd|]. intros T HT.
  destruct (from_xs_ok u xs s [T] Hk P Hs) as [X1 X2]; [intros ? [<-|[]]; lra|]. cbn [map] in X1. exists (xs_value u (reduced_mass xs) s T). split.
  - unfold reactivity_is, reactivity. cbn [parse_reaction bind].
    assert (C : meth <> MXS -> bosch_hale_coefficients r = None) by (intro; apply not_fitted; intro; apply U; now split).
    destruct meth; [|rewrite C by discriminate|rewrite C by discriminate]; rewrite E; cbn [bind]; rewrite X1; cbn [bind]; eauto.
  - specialize (K T HT). apply Rabs_def2 in K. split; [apply X2; now left|lra].
Qed.
Print Assumptions C86_cold_cross_section.

Example C86_example : regular DT MAuto 15 /\ regular DDn MBoschHale 0 /\ regular TT MBoschHale 100 /\ (forall eps, 0 < eps -> exists del, 0 < del /\ forall T, Rabs (T - 15) < del ->
  exists v v', reactivity_is nominal_masses nominal_units DT MAuto 15 v /\ reactivity_is nominal_masses nominal_units DT MAuto T v' /\ Rabs (v' - v) < eps).
Proof.
  assert (U : uses_fit DT MAuto) by (split; [now left|discriminate]).
  assert (HR : forall T, regular DT MAuto T) by (intro T; split; [discriminate|intro N; contradiction]). split; [apply HR|].
  split; [split; [intros; lra|intro N; exfalso; apply N; split; [unfold fitted; auto|discriminate]]|]. split; [split; [intros [[H|[H|H]] _]; discriminate|intros; lra]|].
  destruct C16_C17_example as (Hm & Hu & Hk & _). intros eps He. destruct (C86_no_jump _ _ DT MAuto 15 Hm Hu Hk (HR 15) eps He) as (del & Pd & K). exists del. split; [exact Pd|]. intros T HT. apply K; [apply HR|exact HT].
Qed.
