(** Property theorems C01-C05. *)
From Coq Require Import String Ascii List Arith Bool Lia Sorted.
From Verif Require Import Base Reactions SpecReactions ReactionsProofs.
Local Open Scope string_scope.
Local Open Scope list_scope.

(** C01 *)
Theorem C01_source_type_canonical : forall a : source_arg,
  (valid_arg a -> exists out, parse_source_type a = Ok out /\
     (forall r, In r out <-> asks a r \/ (r = DDp /\ asks a DDn)) /\
     StronglySorted (fun x y => rank x < rank y)%nat out)
  /\ (~ valid_arg a -> parse_source_type a = Err EReactivity).
Proof. exact parse_source_type_spec. Qed.
Print Assumptions C01_source_type_canonical.

Example C01_example :
  valid_arg (SList [IStr "D-D"; IReact TT; IStr "D_D"; IReact DT]) /\
  parse_source_type (SList [IStr "D-D"; IReact TT; IStr "D_D"; IReact DT]) = Ok [DT; DDn; DDp; TT] /\
  parse_source_type SNone = Ok [DT; DDn; DDp; TT] /\
  ~ valid_arg (SList [IStr "D-D"; IOther]) /\
  parse_source_type (SStr "D-X") = Err EReactivity.
Proof.
  repeat split; try reflexivity.
  - intros x Hx; cbn in Hx.
    repeat (destruct Hx as [<-|Hx]; [eexists; constructor; cbn; tauto|]); destruct Hx.
  - intro H; destruct (H IOther) as [r Hr]; [cbn; tauto|inversion Hr].
Qed.

(** C02 *)
Theorem C02_same_set_same_source : forall a1 a2,
  valid_arg a1 -> valid_arg a2 -> (forall r, asks a1 r <-> asks a2 r) ->
  parse_source_type a1 = parse_source_type a2.
Proof. exact parse_same_set. Qed.
Print Assumptions C02_same_set_same_source.

Theorem C02_idempotent : forall a out,
  parse_source_type a = Ok out -> parse_source_type (SList (map IReact out)) = Ok out.
Proof. exact parse_idempotent. Qed.
Print Assumptions C02_idempotent.

Example C02_example :
  (forall r, asks (SList [IStr "D-T"; IReact TT]) r <-> asks (SList [IReact TT; IStr "D_T"; IStr "T-T"]) r) /\
  parse_source_type (SList [IStr "D-T"; IReact TT]) = parse_source_type (SList [IReact TT; IStr "D_T"; IStr "T-T"]).
Proof.
  split; [|reflexivity].
  intro r; split; inversion 1; subst; cbn in *;
  repeat match goal with
  | H : _ \/ _ |- _ => destruct H
  | H : False |- _ => destruct H
  | H : _ = ?x |- _ => subst x
  | H : names _ _ |- _ => inversion H; clear H; subst
  | H : In _ spellings |- _ => cbn in H
  | H : (_, _) = (_, _) |- _ => try discriminate H; injection H as ?; subst
  end; try discriminate;
  first [ solve [eapply (asks_list _ (IStr "D_T")); [cbn; tauto|constructor; cbn; tauto]]
        | solve [eapply (asks_list _ (IStr "D-T")); [cbn; tauto|constructor; cbn; tauto]]
        | solve [eapply (asks_list _ (IReact TT)); [cbn; tauto|constructor]] ].
Qed.

(** C03 *)
Theorem C03_reaction_names : forall s r,
  parse_reaction (IStr s) = Ok r <-> In (s, r) spellings.
Proof. exact parse_str_iff. Qed.
Print Assumptions C03_reaction_names.

Theorem C03_other_strings_rejected : forall s,
  (forall r, ~ In (s, r) spellings) -> parse_reaction (IStr s) = Err EReactivity.
Proof.
  intros s H. apply parse_reaction_err. intros [r Hr]; inversion Hr; subst; eapply H; eauto.
Qed.
Print Assumptions C03_other_strings_rejected.

Theorem C03_no_string_is_aneutronic_DD : forall s, parse_reaction (IStr s) <> Ok DDp.
Proof. intros s H; apply parse_str_iff in H; cbn in H; intuition congruence. Qed.
Print Assumptions C03_no_string_is_aneutronic_DD.

Example C03_example : parse_reaction (IStr "D-He3") = Ok DHe3 /\ parse_reaction (IStr "d-t") = Err EReactivity.
Proof. split; reflexivity. Qed.

(** C04 *)
Theorem C04_reaction_table : forall r,
  exists lhs rhs, equation (label r) = Some (lhs, rhs) /\
    List.length lhs = 2%nat /\
    total nucleons lhs = total nucleons rhs /\
    total charge lhs = total charge rhs /\
    num_neutrons r = count nN rhs /\
    (num_neutrons r = 0%nat <-> is_neutronic r = false).
Proof. intros []; vm_compute; do 2 eexists; repeat split; intros; congruence. Qed.
Print Assumptions C04_reaction_table.

Example C04_example : equation (label TT) = Some ([nT; nT], [nHe4; nN; nN]).
Proof. reflexivity. Qed.

(** C05 *)
Local Open Scope R_scope.
Theorem C05_energy_cycle : forall m,
  total_energy m DDp + total_energy m DT = total_energy m DDn + total_energy m DHe3.
Proof. intro m; cbn; unfold E_DD_TP, E_DT, E_DD_HE3N, E_DHE3; ring. Qed.
Print Assumptions C05_energy_cycle.

(** Mass of a nuclide as the code counts it: neutral-atom masses, so a proton carries its electron. *)
Definition atom_mass (m : masses) (x : nuclide) : R :=
  match x with nD => mD m | nT => mT m | nHe3 => mHe3 m | nHe4 => mHe m | nN => mn m | nP => mp m + me m end.
Definition mass_of (m : masses) (l : list nuclide) : R := fold_right (fun x s => atom_mass m x + s) 0 l.

(** Every released energy is (reactant mass - product mass) of the label, times c^2. *)
Theorem C05_energy_is_mass_defect : forall m r lhs rhs,
  equation (label r) = Some (lhs, rhs) ->
  total_energy m r = (mass_of m lhs - mass_of m rhs) * amu_J m.
Proof.
  intros m r lhs rhs; destruct r; vm_compute equation; intro H; injection H as <- <-;
  cbn; unfold E_DD_TP, E_DT, E_DD_HE3N, E_DHE3, E_TT; ring.
Qed.
Print Assumptions C05_energy_is_mass_defect.

Theorem C05_energy_positive : forall m r lhs rhs,
  0 < amu_J m -> equation (label r) = Some (lhs, rhs) ->
  (0 < total_energy m r <-> mass_of m rhs < mass_of m lhs).
Proof.
  intros m r lhs rhs Hc H. rewrite (C05_energy_is_mass_defect m r lhs rhs H). split; intro h.
  - destruct (Rlt_le_dec (mass_of m rhs) (mass_of m lhs)); [assumption|].
    assert ((mass_of m lhs - mass_of m rhs) * amu_J m <= 0) by nra. lra.
  - nra.
Qed.
Print Assumptions C05_energy_positive.

Theorem C05_neutron_energy_share : forall m,
  0 < mn m -> 0 < E_DT m -> 0 < E_DD_HE3N m -> 0 < mHe m - 2 * me m -> 0 < mHe3 m - 2 * me m ->
  0 < E_DT_neutron m < E_DT m /\ 0 < E_DD_neutron m < E_DD_HE3N m.
Proof.
  intros m Hn H1 H2 H3 H4. unfold E_DT_neutron, E_DD_neutron.
  assert (K : forall a e, 0 < a -> 0 < e -> 0 < a / (a + mn m) * e < e).
  { intros a e Ha He.
    assert (0 < a / (a + mn m) < 1).
    { split; [apply Rdiv_lt_0_compat; lra|].
      apply (Rmult_lt_reg_r (a + mn m)); [lra|]. unfold Rdiv; rewrite Rmult_assoc, Rinv_l; lra. }
    nra. }
  split; apply K; assumption.
Qed.
Print Assumptions C05_neutron_energy_share.

(** Two-body break-up of a compound at rest into nuclei of masses [a] and [b], velocities [va] and [vb] in space, kinetic energy [Q] in total. *)
Definition vec : Type := R * R * R.
Definition dot (u v : vec) : R := fst (fst u) * fst (fst v) + snd (fst u) * snd (fst v) + snd u * snd v.
Definition comb (a : R) (u : vec) (b : R) (v : vec) : vec :=
  (a * fst (fst u) + b * fst (fst v), a * snd (fst u) + b * snd (fst v), a * snd u + b * snd v).
Definition kinetic (mass : R) (v : vec) : R := mass * dot v v / 2.
Definition break_up (Q a b : R) (va vb : vec) : Prop := comb a va b vb = (0, 0, 0) /\ kinetic a va + kinetic b vb = Q.

Lemma break_up_share Q a b va vb : 0 < a -> 0 < b -> break_up Q a b va vb -> kinetic a va = b / (b + a) * Q.
Proof.
  destruct va as [[x y] z], vb as [[x' y'] z']. unfold break_up, kinetic, comb, dot. cbn [fst snd]. intros Ha Hb [H E]. injection H as H1 H2 H3.
  assert (X : forall p q, a * p + b * q = 0 -> q = - (a / b * p)) by (intros p q K; apply (Rmult_eq_reg_l b); [|lra]; field_simplify; lra).
  apply X in H1, H2, H3. subst x' y' z'. rewrite <- E. field. lra.
Qed.

(** The D-T and D-D neutron energies are those of energy and momentum conservation, with the nuclear mass (atom less two electrons) of the helium. *)
Theorem C05_momentum : forall m vn va, 0 < mn m ->
  (0 < mHe m - 2 * me m -> break_up (E_DT m) (mn m) (mHe m - 2 * me m) vn va -> kinetic (mn m) vn = E_DT_neutron m) /\
  (0 < mHe3 m - 2 * me m -> break_up (E_DD_HE3N m) (mn m) (mHe3 m - 2 * me m) vn va -> kinetic (mn m) vn = E_DD_neutron m).
Proof. intros m vn va Hn. split; intros Ha H; now rewrite (break_up_share _ _ _ _ _ Hn Ha H). Qed.
Print Assumptions C05_momentum.

(** T-T: both neutrons together take less than the released energy, and the intermediate step is consistent. *)
Theorem C05_tt_neutron : forall m keV_J, 0 < keV_J -> 10597 * keV_J < E_TT m ->
  0 < 2 * E_TT_neutron m keV_J < E_TT m /\ Q_TT_5He keV_J + Q_5He_4He m keV_J = E_TT m.
Proof. intros m k Hk H. unfold E_TT_neutron, Q_5He_4He, Q_TT_5He. repeat split; lra. Qed.
Print Assumptions C05_tt_neutron.

(** The whole table: the neutrons of a reaction carry a positive part of its energy, less than all of it, exactly if there are any. *)
Theorem C05_neutron_energies : forall m keV_J r,
  0 < mn m -> 0 < mHe m - 2 * me m -> 0 < mHe3 m - 2 * me m -> 0 < E_DT m -> 0 < E_DD_HE3N m -> 0 < keV_J -> 10597 * keV_J < E_TT m ->
  let carried := INR (num_neutrons r) * approx_neutron_energy m keV_J r in
  carried = 0 /\ num_neutrons r = 0%nat \/ 0 < carried < total_energy m r /\ (0 < num_neutrons r)%nat.
Proof.
  intros m k r Hn H1 H2 H3 H4 Hk H carried. destruct (C05_neutron_energy_share m Hn H3 H4 H1 H2) as [[A A'] [B B']]. destruct (C05_tt_neutron m k Hk H) as [[C C'] _].
  unfold carried. destruct r; cbn [num_neutrons approx_neutron_energy total_energy]; [right|right|right|left|left]; (split; [|lia]) || (split; [|reflexivity]); cbn [INR]; lra.
Qed.
Print Assumptions C05_neutron_energies.

(** The T-T neutron energy is documented as that of sequential ejection of two neutrons at classical speeds (masses 1 : 5, then 1 : 4). The second
    neutron leaves a helium-5 nucleus that moves: averaged over opposite directions of ejection, the two neutrons carry together one thirtieth
    of the first Q value more than the code's figure (for velocities relative to the helium-5 [u], [w] of neutron and alpha). *)
Theorem C05_tt_recoil_refuted : forall m keV_J mass vn v5 u w, 0 < mass ->
  break_up (Q_TT_5He keV_J) mass (5 * mass) vn v5 -> break_up (Q_5He_4He m keV_J) mass (4 * mass) u w ->
  let second s := kinetic mass (comb 1 v5 s u) in
  kinetic mass vn + (second 1 + second (-1)) / 2 = 2 * E_TT_neutron m keV_J + Q_TT_5He keV_J / 30.
Proof.
  intros m k mass vn v5 u w Hm H1 H2 second.
  pose proof (break_up_share _ _ _ _ _ Hm (Rmult_lt_0_compat 5 mass ltac:(lra) Hm) H1) as K1.
  pose proof (break_up_share _ _ _ _ _ Hm (Rmult_lt_0_compat 4 mass ltac:(lra) Hm) H2) as K2.
  assert (K5 : kinetic mass v5 = Q_TT_5He k / 30).
  { destruct H1 as [_ E]. rewrite K1 in E. unfold kinetic in *. replace (5 * mass / (5 * mass + mass)) with (5 / 6) in E by (field; lra). lra. }
  assert (P : (second 1 + second (-1)) / 2 = kinetic mass v5 + kinetic mass u).
  { unfold second, kinetic, comb, dot. destruct v5 as [[x y] z], u as [[x' y'] z']. cbn [fst snd]. field. }
  rewrite P, K5, K1, K2. unfold E_TT_neutron. field. lra.
Qed.
Print Assumptions C05_tt_recoil_refuted.

(** The values of the periodic table (rounded): hypotheses are met. *)
Definition real_masses : masses :=
  {| mD := 2.014101777844; mT := 3.016049281; mHe := 4.002603254; mHe3 := 3.016029322;
     mn := 1.00866491595; mp := 1.007276466621; me := 0.000548579909065; amu_J := 0.0000000001492418 |}.
Example C05_example : 10597 * 1.602e-16 < E_TT real_masses /\ 0 < E_DT real_masses /\ 0 < E_DD_HE3N real_masses /\ 0 < mHe real_masses - 2 * me real_masses.
Proof. unfold E_TT, E_DT, E_DD_HE3N; cbn; lra. Qed.
Example C05_break_up_example : break_up 15 1 5 (5, 0, 0) (-1, 0, 0).
Proof. unfold break_up, comb, kinetic, dot. cbn [fst snd]. split; [f_equal; [f_equal|]|]; lra. Qed.
