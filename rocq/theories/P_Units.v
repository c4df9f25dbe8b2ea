(** C77, C78, C79: unit conversion. *)
From Coq Require Import String.
From Verif Require Import Base Units SpecUnits UnitsProofs.
From Verif Require Mcnp OpenMC Transport Reactions Reactivity.

(** C77: raw_uc gives the number of the target unit that is the same amount; it raises DimensionalityError exactly if there is none, and
    UndefinedUnitError exactly if a unit is unknown. *)
Theorem C77_conversion : forall k_B c2 parse v s t q r, 0 < k_B -> 0 < c2 -> sane parse -> parse s = Some q -> parse t = Some r ->
  (forall w, raw_uc k_B c2 parse v s t = Ok w <-> same_amount k_B c2 (dimension_of q) (v * in_si q) (dimension_of r) (w * in_si r)) /\
  (convertible (dimension_of q) (dimension_of r) <-> exists w, raw_uc k_B c2 parse v s t = Ok w) /\
  (~ convertible (dimension_of q) (dimension_of r) <-> raw_uc k_B c2 parse v s t = Err EType).
Proof.
  intros k_B c2 parse v s t q r K C S0 Es Et. destruct (raw_uc_spec k_B c2 K C parse S0 v s t q r Es Et) as [H1 H2]. split; [|split].
  - intro w. split; [|now apply raw_uc_eq]. intro E. destruct (raw_uc_ok k_B c2 K C parse S0 v s t w E) as (q' & r' & Eq & Er & A). rewrite Es in Eq. rewrite Et in Er. injection Eq as <-. injection Er as <-. exact A.
  - split; [intro Cv; destruct (H1 Cv) as (w & E & _); eauto|]. intros (w & E). destruct (convertible_dec (dimension_of q) (dimension_of r)) as [Q|Q]; [exact Q|]. rewrite (H2 Q) in E. discriminate.
  - split; [exact H2|]. intros E Q. destruct (H1 Q) as (w & E' & _). rewrite E in E'. discriminate.
Qed.
Print Assumptions C77_conversion.

Theorem C77_unknown_unit : forall k_B c2 parse v s t, parse s = None \/ parse t = None -> raw_uc k_B c2 parse v s t = Err EAttribute.
Proof. exact raw_uc_unknown. Qed.
Print Assumptions C77_unknown_unit.

Theorem C77_round_trip : forall k_B c2 parse v w s t, 0 < k_B -> 0 < c2 -> sane parse ->
  raw_uc k_B c2 parse v s t = Ok w -> raw_uc k_B c2 parse w t s = Ok v.
Proof.
  intros k_B c2 parse v w s t K C S0 E. destruct (raw_uc_ok k_B c2 K C parse S0 v s t w E) as (q & r & Eq & Er & A). apply (raw_uc_eq k_B c2 K C parse S0 w t s r q v Er Eq). now apply same_amount_sym.
Qed.
Print Assumptions C77_round_trip.

Theorem C77_composition : forall k_B c2 parse v w x s t u, 0 < k_B -> 0 < c2 -> sane parse ->
  raw_uc k_B c2 parse v s t = Ok w -> raw_uc k_B c2 parse w t u = Ok x -> raw_uc k_B c2 parse v s u = Ok x.
Proof.
  intros k_B c2 parse v w x s t u K C S0 E1 E2. destruct (raw_uc_ok k_B c2 K C parse S0 v s t w E1) as (q & r & Eq & Er & A), (raw_uc_ok k_B c2 K C parse S0 w t u x E2) as (r' & p & Er' & Ep & A').
  rewrite Er in Er'. injection Er' as <-. apply (raw_uc_eq k_B c2 K C parse S0 v s u q p x Eq Ep). eapply same_amount_trans; eassumption.
Qed.
Print Assumptions C77_composition.

(** A conversion multiplies by a positive number that depends on the units only, also for arrays. *)
Theorem C77_one_factor : forall k_B c2 parse v w s t, 0 < k_B -> 0 < c2 -> sane parse -> raw_uc k_B c2 parse v s t = Ok w ->
  exists k, 0 < k /\ (forall x, raw_uc k_B c2 parse x s t = Ok (x * k)) /\ forall l, raw_uc_array k_B c2 parse l s t = Ok (map (fun x => x * k) l).
Proof.
  intros k_B c2 parse v w s t K C S0 E. destruct (raw_uc_ok k_B c2 K C parse S0 v s t w E) as (q & r & Eq & Er & A). destruct (raw_uc_spec k_B c2 K C parse S0 1 s t q r Eq Er) as [H _].
  destruct (H (same_amount_convertible _ _ _ _ _ _ A)) as (k & _ & Ak). rewrite Rmult_1_l in Ak. destruct (S0 s q Eq) as [P1 P2], (S0 t r Er) as [P3 P4].
  assert (Pq : 0 < in_si q) by now apply Rmult_lt_0_compat. assert (Pr : 0 < in_si r) by now apply Rmult_lt_0_compat.
  assert (F : forall x, raw_uc k_B c2 parse x s t = Ok (x * k)).
  { intro x. apply (raw_uc_eq k_B c2 K C parse S0 x s t q r _ Eq Er). rewrite Rmult_assoc. now apply same_amount_scale. }
  exists k. split; [|split; [exact F|]].
  - assert (G : 0 < k * in_si r).
    { assert (Pl : forall b f x, energy_like b f \/ power_like b f -> 0 < x <-> 0 < f k_B c2 x).
      { assert (M : forall c y, 0 < c -> (0 < y <-> 0 < y * c)) by (intros c y Hc; split; intro Q; [apply Rmult_lt_0_compat; lra|apply (Rmult_lt_reg_r c); lra]).
        intros b f x [Hf|Hf]; destruct Hf; try reflexivity; now apply M. }
      revert Ak. generalize (k * in_si r). intros z Ak. inversion Ak as [d' x'|a' b' f' g' x' y'' Ha' Hb' E'|a' b' f' g' x' y'' Ha' Hb' E']; subst; [exact Pq| |].
      - apply (proj2 (Pl _ g' z (or_introl Hb'))). rewrite <- E'. apply (proj1 (Pl _ f' _ (or_introl Ha'))). exact Pq.
      - apply (proj2 (Pl _ g' z (or_intror Hb'))). rewrite <- E'. apply (proj1 (Pl _ f' _ (or_intror Ha'))). exact Pq. }
    apply (Rmult_lt_reg_r (in_si r)); lra.
  - intro l. unfold raw_uc_array. induction l as [|x l IH]; [reflexivity|]. cbn [mapM map]. rewrite F, IH. reflexivity.
Qed.
Print Assumptions C77_one_factor.

(** C78: units_compatible. *)
Theorem C78_compatible_iff_convertible : forall k_B c2 parse s t q r, 0 < k_B -> 0 < c2 -> sane parse -> parse s = Some q -> parse t = Some r ->
  exists b, units_compatible k_B c2 parse s t = Ok b /\ (b = true <-> convertible (dimension_of q) (dimension_of r)).
Proof.
  intros k_B c2 parse s t q r K C S0 Es Et. destruct (raw_uc_spec k_B c2 K C parse S0 1 s t q r Es Et) as [H1 H2]. unfold units_compatible.
  destruct (convertible_dec (dimension_of q) (dimension_of r)) as [Q|Q].
  - destruct (H1 Q) as (w & -> & _). exists true. tauto.
  - rewrite (H2 Q). exists false. split; [reflexivity|]. split; [discriminate|contradiction].
Qed.
Print Assumptions C78_compatible_iff_convertible.

Theorem C78_unknown_unit : forall k_B c2 parse s t, parse s = None \/ parse t = None -> units_compatible k_B c2 parse s t = Ok false.
Proof. intros k_B c2 parse s t H. unfold units_compatible. now rewrite raw_uc_unknown. Qed.
Print Assumptions C78_unknown_unit.

Theorem C78_equivalence : forall k_B c2 parse, 0 < k_B -> 0 < c2 -> sane parse ->
  (forall s, parse s <> None -> units_compatible k_B c2 parse s s = Ok true) /\
  (forall s t, units_compatible k_B c2 parse s t = units_compatible k_B c2 parse t s) /\
  (forall s t u, units_compatible k_B c2 parse s t = Ok true -> units_compatible k_B c2 parse t u = Ok true -> units_compatible k_B c2 parse s u = Ok true).
Proof.
  intros k_B c2 parse K C S0.
  assert (Cp : forall s t, units_compatible k_B c2 parse s t = Ok true <-> exists q r, parse s = Some q /\ parse t = Some r /\ convertible (dimension_of q) (dimension_of r)).
  { intros s t. split.
    - intro E. destruct (parse s) as [q|] eqn:Es; [|rewrite C78_unknown_unit in E by auto; discriminate]. destruct (parse t) as [r|] eqn:Et; [|rewrite C78_unknown_unit in E by auto; discriminate].
      exists q, r. destruct (C78_compatible_iff_convertible k_B c2 parse s t q r K C S0 Es Et) as (b & Eb & Hb). rewrite E in Eb. injection Eb as <-. tauto.
    - intros (q & r & Es & Et & Q). destruct (C78_compatible_iff_convertible k_B c2 parse s t q r K C S0 Es Et) as (b & -> & Hb). apply Hb in Q. now subst. }
  assert (Tf : forall s t, units_compatible k_B c2 parse s t = Ok true \/ units_compatible k_B c2 parse s t = Ok false).
  { intros s t. destruct (parse s) as [q|] eqn:Es; [|right; apply C78_unknown_unit; auto]. destruct (parse t) as [r|] eqn:Et; [|right; apply C78_unknown_unit; auto].
    destruct (C78_compatible_iff_convertible k_B c2 parse s t q r K C S0 Es Et) as (b & -> & _). destruct b; auto. }
  assert (Sy : forall s t, units_compatible k_B c2 parse s t = Ok true -> units_compatible k_B c2 parse t s = Ok true).
  { intros s t H. apply Cp in H. destruct H as (q & r & Es & Et & Q). apply Cp. exists r, q. split; [exact Et|]. split; [exact Es|]. now apply convertible_sym. }
  split; [|split].
  - intros s H. destruct (parse s) as [q|] eqn:Es; [|congruence]. apply Cp. exists q, q. repeat split; auto. apply convertible_refl.
  - intros s t. destruct (Tf s t) as [H|H], (Tf t s) as [H'|H']; try congruence; [apply Sy in H|apply Sy in H']; congruence.
  - intros s t u H1 H2. apply Cp in H1, H2. destruct H1 as (q & r & Es & Et & Q1), H2 as (r' & p & Et' & Eu & Q2). rewrite Et in Et'. injection Et' as <-. apply Cp. exists q, p. repeat split; auto.
    now apply (convertible_trans _ (dimension_of r)).
Qed.
Print Assumptions C78_equivalence.

(** C79: the conversions of the library. A registry with the usual meaning of the units the library names; e is the electron volt in joule, u the atomic mass unit in kg. *)
Definition usual_units (e u : R) (parse : string -> option quantity) : Prop :=
  let known s x d := parse s = Some (1, {| scale := x; dim := d |}) in
  known "m"%string 1 (Dim 1 0 0 0 0 0 0) /\ known "cm"%string (1 / 100) (Dim 1 0 0 0 0 0 0) /\
  known "J"%string 1 (Dim 2 1 (-2) 0 0 0 0) /\ known "eV"%string e (Dim 2 1 (-2) 0 0 0 0) /\
  known "keV"%string (1000 * e) (Dim 2 1 (-2) 0 0 0 0) /\ known "MeV"%string (1000000 * e) (Dim 2 1 (-2) 0 0 0 0) /\
  known "kg"%string 1 (Dim 0 1 0 0 0 0 0) /\ known "amu"%string u (Dim 0 1 0 0 0 0 0) /\
  known "1/keV"%string (1 / (1000 * e)) (Dim (-2) (-1) 2 0 0 0 0) /\ known "1/MeV"%string (1 / (1000000 * e)) (Dim (-2) (-1) 2 0 0 0 0).

Theorem C79_library_conversions : forall k_B c2 e u parse x, 0 < k_B -> 0 < c2 -> 0 < e -> 0 < u -> sane parse -> usual_units e u parse ->
  let uc := raw_uc k_B c2 parse in
  uc x "m"%string "cm"%string = Ok (x * 100) /\
  uc x "keV"%string "eV"%string = Ok (x * 1000) /\ uc x "eV"%string "keV"%string = Ok (x / 1000) /\
  uc x "keV"%string "MeV"%string = Ok (x / 1000) /\ uc x "MeV"%string "keV"%string = Ok (x * 1000) /\
  uc x "1/MeV"%string "1/keV"%string = Ok (x / 1000) /\
  uc x "keV"%string "J"%string = Ok (x * (1000 * e)) /\
  uc x "amu"%string "kg"%string = Ok (x * u) /\ uc x "amu"%string "J"%string = Ok (x * u * c2) /\
  (* and so on through the contexts *)
  uc x "amu"%string "MeV"%string = Ok (x * u * c2 / (1000000 * e)).
Proof.
  intros k_B c2 e u parse x K C E U S0 (Um & Ucm & UJ & UeV & UkeV & UMeV & Ukg & Uamu & UikeV & UiMeV) uc.
  assert (Eq : forall s t a b d w, parse s = Some (1, {| scale := a; dim := d |}) -> parse t = Some (1, {| scale := b; dim := d |}) -> x * a = w * b -> uc x s t = Ok w).
  { intros s t a b d w Hs Ht H. apply (raw_uc_eq k_B c2 K C parse S0 x s t _ _ w Hs Ht). unfold dimension_of, in_si. cbn [fst snd scale dim]. rewrite !Rmult_1_l, H. constructor. }
  assert (Me : forall s t a b w, parse s = Some (1, {| scale := a; dim := Dim 0 1 0 0 0 0 0 |}) -> parse t = Some (1, {| scale := b; dim := Dim 2 1 (-2) 0 0 0 0 |}) -> x * a * c2 = w * b -> uc x s t = Ok w).
  { intros s t a b w Hs Ht H. apply (raw_uc_eq k_B c2 K C parse S0 x s t _ _ w Hs Ht). unfold dimension_of, in_si. cbn [fst snd scale dim]. rewrite !Rmult_1_l. eapply SA_energy; [constructor|constructor|exact H]. }
  repeat split.
  - apply (Eq _ _ _ _ _ _ Um Ucm). field.
  - apply (Eq _ _ _ _ _ _ UkeV UeV). field.
  - apply (Eq _ _ _ _ _ _ UeV UkeV). field.
  - apply (Eq _ _ _ _ _ _ UkeV UMeV). field.
  - apply (Eq _ _ _ _ _ _ UMeV UkeV). field.
  - apply (Eq _ _ _ _ _ _ UiMeV UikeV). field. lra.
  - apply (Eq _ _ _ _ _ _ UkeV UJ). field.
  - apply (Eq _ _ _ _ _ _ Uamu Ukg). field.
  - apply (Me _ _ _ _ _ Uamu UJ). field.
  - apply (Me _ _ _ _ _ Uamu UMeV). field. lra.
Qed.
Print Assumptions C79_library_conversions.

(** The factors used by the models of the other files are those of the registry. *)
Theorem C79_models_agree : forall k_B c2 e u parse m un x, 0 < k_B -> 0 < c2 -> 0 < e -> 0 < u -> sane parse -> usual_units e u parse ->
  raw_uc k_B c2 parse 1 "amu"%string "J"%string = Ok (Reactions.amu_J m) -> raw_uc k_B c2 parse 1 "amu"%string "kg"%string = Ok (Reactivity.amu_kg un) ->
  raw_uc k_B c2 parse 1 "keV"%string "J"%string = Ok (Reactivity.keV_J un) ->
  let uc := raw_uc k_B c2 parse in
  uc x "m"%string "cm"%string = Ok (Mcnp.m_to_cm x) /\ uc x "m"%string "cm"%string = Ok (OpenMC.m_to_cm x) /\
  uc x "keV"%string "MeV"%string = Ok (Mcnp.keV_to_MeV x) /\ uc x "keV"%string "eV"%string = Ok (OpenMC.keV_to_eV x) /\ uc x "eV"%string "keV"%string = Ok (Transport.eV_to_keV x) /\
  uc (Reactions.mD m + Reactions.mT m - (Reactions.mHe m + Reactions.mn m)) "amu"%string "J"%string = Ok (Reactions.E_DT m) /\
  uc x "keV"%string "J"%string = Ok (x * Reactivity.keV_J un) /\ uc x "amu"%string "kg"%string = Ok (x * Reactivity.amu_kg un) /\
  Reactions.amu_J m = Reactivity.amu_kg un * c2.
Proof.
  intros k_B c2 e u parse m un x K C E U S0 Us H1 H2 H3 uc.
  destruct (C79_library_conversions k_B c2 e u parse x K C E U S0 Us) as (A1 & A2 & A3 & A4 & _ & _ & A7 & A8 & _).
  destruct (C79_library_conversions k_B c2 e u parse 1 K C E U S0 Us) as (_ & _ & _ & _ & _ & _ & B7 & B8 & B9 & _).
  destruct (C79_library_conversions k_B c2 e u parse (Reactions.mD m + Reactions.mT m - (Reactions.mHe m + Reactions.mn m)) K C E U S0 Us) as (_ & _ & _ & _ & _ & _ & _ & _ & D9 & _).
  cbv zeta in *. rewrite B9 in H1. rewrite B8 in H2. rewrite B7 in H3. injection H1 as H1. injection H2 as H2. injection H3 as H3. unfold uc.
  repeat split.
  - exact A1. - exact A1. - exact A4. - exact A2. - exact A3.
  - rewrite D9. f_equal. unfold Reactions.E_DT. rewrite <- H1. ring.
  - rewrite A7, <- H3. f_equal. ring.
  - rewrite A8, <- H2. f_equal. ring.
  - rewrite <- H1, <- H2. ring.
Qed.
Print Assumptions C79_models_agree.

(** A registry, and a density in the unit 10^19/m^3. *)
Definition small_registry (s : string) : option quantity :=
  (if String.eqb s "m" then Some (1, {| scale := 1; dim := Dim 1 0 0 0 0 0 0 |})
  else if String.eqb s "cm" then Some (1, {| scale := 1 / 100; dim := Dim 1 0 0 0 0 0 0 |})
  else if String.eqb s "J" then Some (1, {| scale := 1; dim := Dim 2 1 (-2) 0 0 0 0 |})
  else if String.eqb s "eV" then Some (1, {| scale := 1.602e-19; dim := Dim 2 1 (-2) 0 0 0 0 |})
  else if String.eqb s "keV" then Some (1, {| scale := 1000 * 1.602e-19; dim := Dim 2 1 (-2) 0 0 0 0 |})
  else if String.eqb s "MeV" then Some (1, {| scale := 1000000 * 1.602e-19; dim := Dim 2 1 (-2) 0 0 0 0 |})
  else if String.eqb s "kg" then Some (1, {| scale := 1; dim := Dim 0 1 0 0 0 0 0 |})
  else if String.eqb s "amu" then Some (1, {| scale := 1.6605e-27; dim := Dim 0 1 0 0 0 0 0 |})
  else if String.eqb s "1/keV" then Some (1, {| scale := 1 / (1000 * 1.602e-19); dim := Dim (-2) (-1) 2 0 0 0 0 |})
  else if String.eqb s "1/MeV" then Some (1, {| scale := 1 / (1000000 * 1.602e-19); dim := Dim (-2) (-1) 2 0 0 0 0 |})
  else if String.eqb s "10^19/m^3" then Some (10 ^ 19, {| scale := 1; dim := Dim (-3) 0 0 0 0 0 0 |})
  else if String.eqb s "1/m^3" then Some (1, {| scale := 1; dim := Dim (-3) 0 0 0 0 0 0 |})
  else if String.eqb s "K" then Some (1, {| scale := 1; dim := Dim 0 0 0 0 1 0 0 |})
  else None)%string.
Example C77_example : sane small_registry /\ usual_units 1.602e-19 1.6605e-27 small_registry /\
  raw_uc 1.38e-23 9e16 small_registry 3 "10^19/m^3" "1/m^3" = Ok (3 * 10 ^ 19) /\ units_compatible 1.38e-23 9e16 small_registry "K" "keV" = Ok true /\
  units_compatible 1.38e-23 9e16 small_registry "m" "keV" = Ok false.
Proof.
  assert (S0 : sane small_registry).
  { intros s q. unfold small_registry. repeat (destruct (String.eqb s _); [intro H; injection H as <-; cbn [fst snd scale]; split; lra || (apply Rdiv_lt_0_compat; lra) || (apply pow_lt; lra)|]). discriminate. }
  split; [exact S0|]. split; [repeat split|]. split; [|split].
  - eapply (raw_uc_eq 1.38e-23 9e16 ltac:(lra) ltac:(lra) small_registry S0); [reflexivity|reflexivity|]. unfold in_si. cbn [fst snd scale dimension_of dim].
    replace (3 * (10 ^ 19 * 1)) with (3 * 10 ^ 19 * (1 * 1)) by ring. constructor.
  - destruct (C78_compatible_iff_convertible 1.38e-23 9e16 small_registry "K" "keV" _ _ ltac:(lra) ltac:(lra) S0 eq_refl eq_refl) as (b & -> & Hb). f_equal. apply Hb. right. left. do 2 eexists. split; constructor.
  - destruct (C78_compatible_iff_convertible 1.38e-23 9e16 small_registry "m" "keV" _ _ ltac:(lra) ltac:(lra) S0 eq_refl eq_refl) as (b & -> & Hb). f_equal. destruct b; [|reflexivity]. exfalso.
    destruct (proj1 Hb eq_refl) as [Q|[(f & g & Q & _)|(f & g & Q & _)]]; [discriminate|inversion Q..].
Qed.
