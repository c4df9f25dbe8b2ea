(** Property theorems C89: hotter or denser plasmas never yield less (up to the temperature where a fit turns down). *)
From Coq Require Import String.
From Verif Require Import Base Reactions SpecReactions ReactionsProofs Profile Transport Space SpecSpace SpaceProofs P_Space
  Reactivity SpecReactivity ReactivityProofs P_Reactivity Source SpecSource SourceProofs P_Source SpecMono PolyPos MonoProofs.

Lemma published_rises : forall r x y, fitted r -> x < y -> y <= rises_to r -> 0 < y ->
  0 <= published_SI r x < published_SI r y.
Proof.
  intros r x y Hf H Hy H0. unfold published_SI. destruct (Rle_dec y 0); [lra|].
  destruct (fitted_coeffs r Hf) as (_ & F & Hb & Hm & Hc & _).
  assert (G : bh_good r y) by (destruct Hf as [->|[->| ->]]; cbn [rises_to] in Hy; unfold bh_good; [left; congruence|right; lra|left; congruence]).
  destruct (fitted_point r y Hf G) as [_ Py]. specialize (Py H0). unfold published_SI in Py. destruct (Rle_dec y 0); [lra|].
  destruct (Rle_dec x 0) as [Hx|Hx]; [lra|].
  assert (Gx : bh_good r x) by (destruct Hf as [->|[->| ->]]; cbn [rises_to] in Hy; unfold bh_good; [left; congruence|right; lra|left; congruence]).
  destruct (fitted_point r x Hf Gx) as [_ Px]. specialize (Px ltac:(lra)). unfold published_SI in Px. destruct (Rle_dec x 0); [lra|].
  split; [lra|]. rewrite <- !F. apply Rmult_lt_compat_r; [lra|].
  destruct Hf as [->|[->| ->]]; cbn [rises_to coeffs] in *; [apply DT_rises|apply DDn_rises|apply DDp_rises]; lra.
Qed.

(** One temperature at a time (arrays are handled element by element, C14). *)
Lemma single : forall m u r meth x, fitted r -> meth <> MXS -> x <= rises_to r \/ x <= 100 ->
  exists w, reactivity m u [x] (IReact r) meth = Ok ([published_SI r x], w).
Proof.
  intros m u r meth x Hf Hm Hx. destruct (C15_beyond_range m u r [x] meth Hf) as (w & E & _).
  - destruct meth; [congruence|auto|auto].
  - discriminate.
  - intros -> T [<-|[]]. cbn [rises_to] in Hx. left. lra.
  - exists w. exact E.
Qed.

Theorem C89_reactivity_rises : forall m u r meth x y, fitted r -> meth <> MXS -> x < y -> y <= rises_to r ->
  exists a b w w', reactivity m u [x] (IReact r) meth = Ok ([a], w) /\ reactivity m u [y] (IReact r) meth = Ok ([b], w') /\
    0 <= a <= b /\ (0 < y -> a < b).
Proof.
  intros m u r meth x y Hf Hm H Hy.
  destruct (single m u r meth x Hf Hm) as [w E]; [left; lra|]. destruct (single m u r meth y Hf Hm) as [w' E']; [now left|].
  exists (published_SI r x), (published_SI r y), w, w'. split; [exact E|]. split; [exact E'|].
  destruct (Rlt_le_dec 0 y) as [P|N].
  - pose proof (published_rises r x y Hf H Hy P). split; [lra|]. intros; lra.
  - unfold published_SI. destruct (Rle_dec x 0); [|lra]. destruct (Rle_dec y 0); [|lra]. split; lra.
Qed.
Print Assumptions C89_reactivity_rises.

(** Within the published range of the D-T fit (to 100 keV) the reactivity has a maximum: from 66.7 keV on, hotter fuel
    reacts less. So "hotter never yields less" is false of the fit as a whole. *)
Theorem C89_hotter_yields_less_refuted : forall m u meth x y, meth <> MXS -> 66.7 <= x -> x < y -> y <= 100 ->
  exists a b w w', reactivity m u [x] (IReact DT) meth = Ok ([a], w) /\ reactivity m u [y] (IReact DT) meth = Ok ([b], w') /\
    0 < b < a.
Proof.
  intros m u meth x y Hm Hx H Hy. assert (Hf : fitted DT) by (unfold fitted; auto).
  destruct (single m u DT meth x Hf Hm) as [w E]; [right; lra|]. destruct (single m u DT meth y Hf Hm) as [w' E']; [right; lra|].
  exists (published_SI DT x), (published_SI DT y), w, w'. split; [exact E|]. split; [exact E'|].
  destruct (fitted_point DT y Hf) as [_ Py]; [left; congruence|]. specialize (Py ltac:(lra)). split; [exact Py|].
  unfold published_SI. destruct (Rle_dec x 0); [lra|]. destruct (Rle_dec y 0); [lra|].
  destruct (fitted_coeffs DT Hf) as (_ & F & _). rewrite <- !F. apply Rmult_lt_compat_r; [lra|]. apply DT_falls; assumption.
Qed.
Print Assumptions C89_hotter_yields_less_refuted.

Lemma total_Forall2 : forall l l', Forall2 Rle l l' -> total l <= total l'.
Proof. induction 1; cbn [total]; lra. Qed.
Lemma pair_mono : forall d t h d' t' h' a b, 0 <= d <= d' -> 0 <= t <= t' -> 0 <= h <= h' ->
  0 <= pair_density (fuel d t h) a b <= pair_density (fuel d' t' h') a b.
Proof.
  intros d t h d' t' h' a b Hd Ht Hh. unfold pair_density.
  assert (K : forall n, 0 <= fuel d t h n <= fuel d' t' h' n) by (intros []; cbn; lra).
  pose proof (K a) as A. pose proof (K b) as B. assert (P : 0 <= fuel d t h a * fuel d t h b <= fuel d' t' h' a * fuel d' t' h' b).
  { split; [apply Rmult_le_pos; lra|]. apply Rmult_le_compat; lra. }
  destruct (nuclide_eq_dec a b); split; lra.
Qed.

Lemma compare : forall m u inside h tr h' tr' fm arg side meth s ws s' ws', 0 < side ->
  make_source m u inside h tr fm arg side None meth = Ok (s, ws) ->
  make_source m u inside h' tr' fm arg side None meth = Ok (s', ws') ->
  (forall c, In c (cells s) -> 0 <= sx c) -> nowhere_denser h tr h' tr' ->
  (forall r psi T T' v v' w w', In r (source_type s) -> read h (temp_prof tr) psi = Ok T -> read h' (temp_prof tr') psi = Ok T' ->
     reactivity m u [T] (IReact r) meth = Ok ([v], w) -> reactivity m u [T'] (IReact r) meth = Ok ([v'], w') -> 0 <= v <= v') ->
  no_less m s s' (power m).
Proof.
  intros m u inside h tr h' tr' fm arg side meth s ws s' ws' Hside E E' Hx ((D1 & D2) & (D3 & D4) & D5 & D6) Hv.
  destruct (C06_strength_formula _ _ _ _ _ _ _ _ _ _ _ E) as (Ep & Es & _ & F).
  destruct (C06_strength_formula _ _ _ _ _ _ _ _ _ _ _ E') as (Ep' & Es' & _ & F').
  assert (Et : source_type s' = source_type s) by congruence. assert (Ec : cells s' = cells s) by congruence.
  apply make_bare_ok in E. destruct E as (_ & _ & _ & _ & _ & ps & _ & _ & _ & f & E1 & _ & _ & _ & _ & C & _).
  apply make_bare_ok in E'. destruct E' as (_ & _ & _ & _ & _ & ps' & _ & _ & _ & f' & E1' & _ & _ & _ & _ & C' & _).
  assert (K : forall r, In r (source_type s) -> Forall2 Rle (f r) (f' r)).
  { intros r Hr. destruct (F r Hr) as (l & G1 & L & P). destruct (F' r) as (l' & G1' & L' & P'); [now rewrite Et|].
    destruct C as (_ & C1 & _). destruct C' as (_ & C1' & _). rewrite C1 in G1. rewrite C1' in G1'. rewrite dget_dmap_in in G1 by exact Hr.
    rewrite dget_dmap_in in G1' by now rewrite Et. injection G1 as ->. injection G1' as ->. rewrite Ec in L', P'.
    assert (Q : forall i x y, nth_error l i = Some x -> nth_error l' i = Some y -> x <= y).
    { intros i x y Hi Hi'. destruct (nth_error (cells s) i) as [c|] eqn:Hc.
      2:{ apply nth_error_None in Hc. rewrite <- L in Hc. apply nth_error_None in Hc. congruence. }
      destruct (P i c Hc) as (psi & T & d & t & h3 & sv & w & a & b & pr & A1 & A2 & A3 & A4 & A5 & A6 & A7 & A8 & A9).
      destruct (P' i c Hc) as (psi' & T' & d' & t' & h3' & sv' & w' & a' & b' & pr' & B1 & B2 & B3 & B4 & B5 & B6 & B7 & B8 & B9).
      assert (psi' = psi) by congruence. subst psi'. assert (a' = a) by congruence. assert (b' = b) by congruence. subst a' b'.
      rewrite Hi in A9. rewrite Hi' in B9. injection A9 as ->. injection B9 as ->.
      pose proof (D1 _ _ _ A3 B3). pose proof (D2 _ _ A3). pose proof (D3 _ _ _ A4 B4). pose proof (D4 _ _ A4).
      pose proof (D5 _ _ _ A5 B5). pose proof (D6 _ _ A5).
      pose proof (Hv r psi T T' sv sv' w w' Hr A2 B2 A7 B7) as V.
      pose proof (pair_mono d t h3 d' t' h3' a b ltac:(lra) ltac:(lra) ltac:(lra)) as Q.
      destruct (sample_lattice inside _ _ side Hside _ Es c (nth_error_In _ _ Hc)) as (_ & _ & Vc).
      assert (0 <= svol c). { rewrite Vc. pose proof PI_RGT_0. specialize (Hx c (nth_error_In _ _ Hc)).
        apply Rmult_le_pos; [|nra]. apply Rmult_le_pos; [lra|exact Hx]. }
      apply Rmult_le_compat_r; [assumption|]. apply Rmult_le_compat; lra. }
    clear - L L' Q. assert (LL : length l = length l') by congruence. clear L L'. revert l' LL Q.
    induction l as [|x l IH]; intros [|y l'] LL Q; try discriminate; constructor.
    - now apply (Q 0%nat).
    - apply IH; [now injection LL|]. intros i a b Ha Hb. now apply (Q (S i)). }
  assert (Ks : forall r, In r (source_type s) -> pysum (f r) <= pysum (f' r)).
  { intros r Hr. rewrite !pysum_total. apply total_Forall2. now apply K. }
  assert (Cc := C). assert (Cc' := C'). destruct C as (N & C1 & C2 & C3 & L). destruct C' as (N' & C1' & C2' & C3' & L').
  rewrite Et in C1', C2', C3'.
  split; [exact Et|]. split; [exact Ec|]. split; [|split; [|split]].
  - intros r Hr. exists (f r), (f' r), (pysum (f r)), (pysum (f' r)), (pysum (f r) * INR (num_neutrons r)), (pysum (f' r) * INR (num_neutrons r)).
    rewrite C1, C2, C3, C1', C2', C3'. rewrite !dget_dmap_in by exact Hr. repeat (split; [reflexivity|]).
    split; [now apply K|]. repeat (split; [reflexivity|]). split; [now apply Ks|]. repeat (split; [reflexivity|]).
    apply Rmult_le_compat_r; [apply pos_INR|now apply Ks].
  - unfold source_rate. rewrite C3, C3', !map_snd_dmap, !pysum_total. apply total_le. intros r Hr.
    apply Rmult_le_compat_r; [apply pos_INR|now apply Ks].
  - unfold source_T_rate, dget0. rewrite C2, C2', !dget_dmap. rewrite !pysum_cons, !pysum_nil.
    assert (Z : forall r, (if memb r (source_type s) then pysum (f r) else 0) <= (if memb r (source_type s) then pysum (f' r) else 0)).
    { intro r. destruct (memb r (source_type s)) eqn:Q; [|lra]. apply Ks. now apply memb_In. }
    pose proof (Z DT). pose proof (Z TT). destruct (memb DT (source_type s)), (memb TT (source_type s)); lra.
  - intro He. rewrite (power_eq m s f Cc), (power_eq m s' f' Cc'), Et, !pysum_total. apply total_le. intros r Hr.
    apply Rmult_le_compat_r; [now apply He|now apply Ks].
Qed.

(** Hotter and denser, for the channels with a Bosch-Hale fit (every channel of "D-T" and "D-D" sources). *)
Theorem C89_hotter_denser : forall m u inside h tr h' tr' fm arg side meth s ws s' ws', 0 < side -> meth <> MXS ->
  make_source m u inside h tr fm arg side None meth = Ok (s, ws) ->
  make_source m u inside h' tr' fm arg side None meth = Ok (s', ws') ->
  (forall c, In c (cells s) -> 0 <= sx c) -> nowhere_denser h tr h' tr' -> below h (temp_prof tr) h' (temp_prof tr') ->
  (forall r, In r (source_type s) -> fitted r /\ forall psi T, read h' (temp_prof tr') psi = Ok T -> T <= rises_to r) ->
  no_less m s s' (power m).
Proof.
  intros m u inside h tr h' tr' fm arg side meth s ws s' ws' Hside Hm E E' Hx Hd Ht Hr.
  apply (compare m u inside h tr h' tr' fm arg side meth s ws s' ws' Hside E E' Hx Hd). intros r psi T T' v v' w w' Hi R1 R2 V V'. destruct (Hr r Hi) as [Hf Hl]. specialize (Hl psi T' R2).
  specialize (Ht psi T T' R1 R2). destruct (Rle_lt_or_eq_dec T T' Ht) as [L|<-].
  - destruct (C89_reactivity_rises m u r meth T T' Hf Hm L Hl) as (a & b & w1 & w2 & Q1 & Q2 & Q3 & _).
    rewrite Q1 in V. rewrite Q2 in V'. injection V as <- <-. injection V' as <- <-. exact Q3.
  - rewrite V in V'. injection V' as <- <-. destruct (single m u r meth T Hf Hm) as [w1 Q]; [left; lra|]. rewrite Q in V. injection V as <- <-.
    unfold published_SI. destruct (Rle_dec T 0) as [|P]; [lra|].
    assert (G : bh_good r T) by (destruct Hf as [->|[->| ->]]; cbn [rises_to] in Hl; unfold bh_good; [left; congruence|right; lra|left; congruence]).
    destruct (fitted_point r T Hf G) as [_ Px]. specialize (Px ltac:(lra)). unfold published_SI in Px. destruct (Rle_dec T 0); lra.
Qed.
Print Assumptions C89_hotter_denser.

(** Denser at the same temperature: every channel and either reactivity method. *)
Theorem C89_denser : forall m u inside h tr h' tr' fm arg side meth s ws s' ws', 0 < side ->
  physical_masses m -> 0 < amu_kg u -> 0 < keV_J u ->
  make_source m u inside h tr fm arg side None meth = Ok (s, ws) ->
  make_source m u inside h' tr' fm arg side None meth = Ok (s', ws') ->
  (forall c, In c (cells s) -> 0 <= sx c) -> nowhere_denser h tr h' tr' ->
  (forall psi T T', read h (temp_prof tr) psi = Ok T -> read h' (temp_prof tr') psi = Ok T' -> T' = T /\ 0 < T <= 100) ->
  no_less m s s' (power m).
Proof.
  intros m u inside h tr h' tr' fm arg side meth s ws s' ws' Hside Hm Hu Hk E E' Hx Hd Ht.
  apply (compare m u inside h tr h' tr' fm arg side meth s ws s' ws' Hside E E' Hx Hd). intros r psi T T' v v' w w' Hi R1 R2 V V'. destruct (Ht psi T T' R1 R2) as [-> HT].
  rewrite V in V'. injection V' as <- <-.
  destruct (reactivity_total m u Hm Hu Hk [T] r meth) as (l & w1 & Ev & Pv); [discriminate|intros ? [<-|[]]; lra|].
  rewrite V in Ev. injection Ev as <- <-. assert (Hsv := Forall_inv Pv). cbv beta in Hsv. lra.
Qed.
Print Assumptions C89_denser.

(** A case: the isothermal example source (10 keV, 10^20 m^-3) against the same plasma at 20 keV and twice the density. *)
Lemma flat_value : forall a psi, value (PPed a a a 1 1 (1/2) 1) psi = Ok a.
Proof.
  intros a psi. unfold value. destruct (clip_range 0 1 psi); [lra|]. set (rho := clip 0 1 psi) in *.
  destruct (Rltb_spec rho (1/2)).
  - rewrite np_div_ok by lra. cbn [bind].
    assert (Q : exists q, np_pow (rho / (1/2)) 1 = Ok q).
    { destruct (Req_dec rho 0) as [->|Z]; [exists 0; rewrite <- (np_pow_0 1) by lra; f_equal; lra|].
      eexists. apply np_pow_pos. lra. }
    destruct Q as [q ->]. cbn [bind].
    assert (Q : exists t, np_pow (clip 0 1 (1 - q)) 1 = Ok t).
    { destruct (clip_range 0 1 (1 - q)); [lra|]. destruct (Req_dec (clip 0 1 (1 - q)) 0) as [->|Z]; [exists 0; apply np_pow_0; lra|].
      eexists. apply np_pow_pos. lra. }
    destruct Q as [t ->]. cbn [bind]. f_equal. ring.
  - destruct (Reqb_spec (1/2) 1); [lra|]. rewrite np_div_ok by lra. cbn [bind]. f_equal. field.
Qed.
Definition hot_heap : heap := [PPed 20 20 20 1 1 (1/2) 1; PPed 2e20 2e20 2e20 1 1 (1/2) 1].
Lemma hot_read : forall p psi, (p <= 1)%nat -> read hot_heap p psi = Ok (if (p =? 0)%nat then 20 else 2e20).
Proof. intros [|[|p]] psi H; [apply flat_value|apply flat_value|lia]. Qed.

Example C89_example : exists s ws s' ws',
  make_source nominal_masses nominal_units mpl_inside ex_heap ex_transport ex_map (SList [IStr "D-T"%string; IStr "D-D"%string]) (1/2) None MAuto = Ok (s, ws) /\
  make_source nominal_masses nominal_units mpl_inside hot_heap ex_transport ex_map (SList [IStr "D-T"%string; IStr "D-D"%string]) (1/2) None MAuto = Ok (s', ws') /\
  source_type s = [DT; DDn; DDp] /\ cells s <> [] /\ no_less nominal_masses s s' (power nominal_masses).
Proof.
  destruct C06_C12_example as (s & ws & E & St & _ & P & _ & Cn & _ & Ge). exists s, ws.
  destruct C16_C17_example as (Hm & Hu & Hk & _).
  destruct (C06_strength_formula _ _ _ _ _ _ _ _ _ _ _ E) as (_ & Es & _).
  destruct (C06_constructor_succeeds nominal_masses nominal_units mpl_inside hot_heap ex_transport ex_map (SList [IStr "D-T"%string; IStr "D-D"%string])
    (1/2) MAuto (cells s) Hm Hu Hk) as (s' & ws' & E' & Ec).
  - intros x [<-|[<-|[]]]; eexists; constructor; cbn; auto.
  - exact Es.
  - exact Cn.
  - intros c0 _. eexists; reflexivity.
  - intro psi. exists 20. split; [apply (hot_read 0); lia|lra].
  - intros p psi Hp. assert (p = 1%nat) as -> by (destruct Hp as [<-|[<-|[<-|[]]]]; reflexivity). exists 2e20. apply (hot_read 1). lia.
  - exists s', ws'. split; [exact E|]. split; [exact E'|]. split; [exact St|]. split; [exact Cn|].
    assert (Q1 : forall psi a, read ex_heap 1%nat psi = Ok a -> a = 1e20) by (intros psi a; rewrite ex_read by lia; cbn [Nat.eqb]; congruence).
    assert (Q2 : forall psi a, read hot_heap 1%nat psi = Ok a -> a = 2e20) by (intros psi a; rewrite hot_read by lia; cbn [Nat.eqb]; congruence).
    assert (Q3 : forall psi T, read ex_heap 0%nat psi = Ok T -> T = 10) by (intros psi a; rewrite ex_read by lia; cbn [Nat.eqb]; congruence).
    assert (Q4 : forall psi T, read hot_heap 0%nat psi = Ok T -> T = 20) by (intros psi a; rewrite hot_read by lia; cbn [Nat.eqb]; congruence).
    apply (C89_hotter_denser nominal_masses nominal_units mpl_inside ex_heap ex_transport hot_heap ex_transport ex_map (SList [IStr "D-T"%string; IStr "D-D"%string]) (1/2) MAuto s ws s' ws'); try assumption; try lra; try discriminate.
    + intros c Hc. specialize (Ge c Hc). lra.
    + assert (B : below ex_heap 1%nat hot_heap 1%nat) by (intros psi a b A1 A2; apply Q1 in A1; apply Q2 in A2; lra).
      assert (N : nonnegative ex_heap 1%nat) by (intros psi a A1; apply Q1 in A1; lra).
      repeat split; assumption.
    + intros psi a b A1 A2. apply Q3 in A1. apply Q4 in A2. lra.
    + rewrite St. intros r [<-|[<-|[<-|[]]]]; (split; [unfold fitted; auto|]); intros psi T HT; apply Q4 in HT; subst; cbn [rises_to]; lra.
Qed.
