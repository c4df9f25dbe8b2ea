(** Lemmas about unit conversion. *)
From Coq Require Import String.
From Verif Require Import Base Units SpecUnits.

Lemma dim_eqb_spec a b : reflect (a = b) (dim_eqb a b).
Proof.
  destruct a as [a1 a2 a3 a4 a5 a6 a7], b as [b1 b2 b3 b4 b5 b6 b7]. unfold dim_eqb. cbn.
  repeat match goal with |- context [(?x =? ?y)%Z] => destruct (Z.eqb_spec x y) end; cbn; constructor; congruence.
Qed.
Lemma dim_eqb_refl a : dim_eqb a a = true.
Proof. destruct (dim_eqb_spec a a); congruence. Qed.

Section Convert.
  Variables (k_B c2 : R) (kpos : 0 < k_B) (cpos : 0 < c2).
  Notation to := (to k_B c2).

  (** What a quantity becomes: the outcome of to, when the dimensions are concrete. *)
  Definition unit_at (s : R) (d : dimension) : unit_ := {| scale := s; dim := d |}.
  Definition node (d : dimension) : Prop := (exists f, energy_like d f) \/ (exists f, power_like d f).

  Lemma not_node_find1 a b : ~ node a -> find1 k_B c2 a b = None.
  Proof.
    intro N. unfold find1. cbn [contexts transform_ flat_map app find fst snd].
    assert (H : forall d, node d -> dim_eqb d a = false) by (intros d Hd; destruct (dim_eqb_spec d a); [subst; contradiction|reflexivity]).
    repeat (rewrite H; [cbn [andb]|first [left; eexists; constructor | right; eexists; constructor]]). reflexivity.
  Qed.
  Lemma not_node_find2 a b : ~ node a -> find2 k_B c2 a b = None.
  Proof.
    intro N. unfold find2. cbn [contexts transform_ flat_map app filter fst snd].
    assert (H : forall d, node d -> dim_eqb d a = false) by (intros d Hd; destruct (dim_eqb_spec d a); [subst; contradiction|reflexivity]).
    repeat (rewrite H; [cbn [andb]|first [left; eexists; constructor | right; eexists; constructor]]). reflexivity.
  Qed.
  Lemma not_node_find1_r a b : ~ node b -> find1 k_B c2 a b = None.
  Proof.
    intro N. unfold find1. cbn [contexts transform_ flat_map app find fst snd].
    assert (H : forall d, node d -> dim_eqb d b = false) by (intros d Hd; destruct (dim_eqb_spec d b); [subst; contradiction|reflexivity]).
    rewrite !H by (first [left; eexists; constructor | right; eexists; constructor]). now rewrite !andb_false_r.
  Qed.
  Lemma not_node_find2_r a b : ~ node b -> find2 k_B c2 a b = None.
  Proof.
    intro N. unfold find2. cbn [contexts transform_ flat_map app filter fst snd]. rewrite !not_node_find1_r by exact N. now rewrite !andb_false_r.
  Qed.
  Lemma to_same v s t d : 0 < t -> to (v, unit_at s d) (unit_at t d) = Ok (v * s / t).
  Proof. intro T. unfold Units.to, apply_contexts. cbn [fst snd dim unit_at scale]. now rewrite !dim_eqb_refl. Qed.
  Lemma to_apart v s t a b : ~ (node a /\ node b) -> a <> b -> to (v, unit_at s a) (unit_at t b) = Err EType.
  Proof.
    intros N D. unfold Units.to, apply_contexts. cbn [fst snd dim unit_at scale]. destruct (dim_eqb_spec a b); [contradiction|].
    assert (H : find1 k_B c2 a b = None /\ find2 k_B c2 a b = None).
    { assert (Dn : forall d, node d \/ ~ node d).
      { intro d.
        destruct (dim_eqb_spec d (Dim 0 1 0 0 0 0 0)) as [-> |?]; [left; left; eexists; constructor|].
        destruct (dim_eqb_spec d (Dim 0 0 0 0 1 0 0)) as [-> |?]; [left; left; eexists; constructor|].
        destruct (dim_eqb_spec d (Dim 2 1 (-2) 0 0 0 0)) as [-> |?]; [left; left; eexists; constructor|].
        destruct (dim_eqb_spec d (Dim 0 1 (-1) 0 0 0 0)) as [-> |?]; [left; right; eexists; constructor|].
        destruct (dim_eqb_spec d (Dim 0 0 (-1) 0 1 0 0)) as [-> |?]; [left; right; eexists; constructor|].
        destruct (dim_eqb_spec d (Dim 2 1 (-3) 0 0 0 0)) as [-> |?]; [left; right; eexists; constructor|].
        right. intros [[f E]|[f E]]; inversion E; congruence. }
      destruct (Dn a) as [Na|Na]; [destruct (Dn b) as [Nb|Nb]; [exfalso; auto|]|].
      - split; [now apply not_node_find1_r|now apply not_node_find2_r].
      - split; [now apply not_node_find1|now apply not_node_find2]. }
    destruct H as [-> ->]. cbn [fst snd dim unit_at scale]. destruct (dim_eqb_spec a b); [contradiction|reflexivity].
  Qed.
  Lemma energy_power a f : energy_like a f -> forall g, ~ power_like a g.
  Proof. intros H g P. inversion H; subst; inversion P. Qed.
  Lemma like_functional a f : (energy_like a f \/ power_like a f) -> forall g, (energy_like a g \/ power_like a g) -> f = g.
  Proof. intros [H|H] g [G|G]; inversion H; subst; inversion G; reflexivity. Qed.

  (** Conversion within a family. *)
  Lemma to_family v s t a b f g : 0 < s -> 0 < t -> (energy_like a f /\ energy_like b g \/ power_like a f /\ power_like b g) ->
    exists w, to (v, unit_at s a) (unit_at t b) = Ok w /\ g k_B c2 (w * t) = f k_B c2 (v * s).
  Proof.
    intros S T [[Ha Hb]|[Ha Hb]]; destruct Ha, Hb; unfold Units.to, apply_contexts; cbn; eexists; (split; [reflexivity|]); field; lra.
  Qed.
  Lemma to_cross v s t a b f g : (energy_like a f /\ power_like b g \/ power_like a f /\ energy_like b g) -> to (v, unit_at s a) (unit_at t b) = Err EType.
  Proof. intros [[Ha Hb]|[Ha Hb]]; destruct Ha, Hb; reflexivity. Qed.

  Lemma convertible_dec a b : convertible a b \/ ~ convertible a b.
  Proof. destruct (Classical_Prop.classic (convertible a b)); auto. Qed.
  Lemma to_spec v s t a b : 0 < s -> 0 < t ->
    (convertible a b -> exists w, to (v, unit_at s a) (unit_at t b) = Ok w /\ same_amount k_B c2 a (v * s) b (w * t)) /\
    (~ convertible a b -> to (v, unit_at s a) (unit_at t b) = Err EType).
  Proof.
    intros S T. split.
    - intros [-> |[(f & g & Ha & Hb)|(f & g & Ha & Hb)]].
      + exists (v * s / t). split; [now apply to_same|]. replace (v * s / t * t) with (v * s) by (field; lra). constructor.
      + destruct (to_family v s t a b f g S T (or_introl (conj Ha Hb))) as (w & E & Q). exists w. split; [exact E|]. eapply SA_energy; [exact Ha|exact Hb|now symmetry].
      + destruct (to_family v s t a b f g S T (or_intror (conj Ha Hb))) as (w & E & Q). exists w. split; [exact E|]. eapply SA_power; [exact Ha|exact Hb|now symmetry].
    - intro N. assert (D : a <> b) by (intros ->; apply N; now left).
      destruct (Classical_Prop.classic (node a /\ node b)) as [[Na Nb]|Nn]; [|now apply to_apart].
      destruct Na as [[f Ha]|[f Ha]], Nb as [[g Hb]|[g Hb]].
      + exfalso. apply N. right. left. eauto.
      + apply (to_cross v s t a b f g). auto.
      + apply (to_cross v s t a b f g). auto.
      + exfalso. apply N. right. right. eauto.
  Qed.

  (** The amount fixes the number. *)
  Lemma like_injective a f x y : energy_like a f \/ power_like a f -> f k_B c2 x = f k_B c2 y -> x = y.
  Proof. intros [H|H] E; destruct H; [apply (Rmult_eq_reg_r c2)|apply (Rmult_eq_reg_r k_B)|exact E|apply (Rmult_eq_reg_r c2)|apply (Rmult_eq_reg_r k_B)|exact E]; lra. Qed.
  Lemma same_amount_unique a x b y y' : same_amount k_B c2 a x b y -> same_amount k_B c2 a x b y' -> y = y'.
  Proof.
    assert (Inj : forall b f g y y', (energy_like b f \/ power_like b f) -> (energy_like b g \/ power_like b g) -> f k_B c2 y = g k_B c2 y' -> y = y').
    { intros b0 f g z z' Hf Hg E. rewrite (like_functional b0 f Hf g Hg) in E. now apply (like_injective b0 g). }
    intros H1 H2. destruct H1 as [d x|a b f g x y Ha Hb E|a b f g x y Ha Hb E]; inversion H2 as [d' x'|a' b' f' g' x' y'' Ha' Hb' E'|a' b' f' g' x' y'' Ha' Hb' E']; subst; try reflexivity.
    - apply (Inj d f' g'); auto.
    - apply (Inj d f' g'); auto.
    - symmetry. apply (Inj b f g); auto.
    - apply (Inj b g g'); auto. rewrite <- E, <- E', (like_functional a f (or_introl Ha) f' (or_introl Ha')). reflexivity.
    - exfalso. now apply (energy_power a f Ha f').
    - symmetry. apply (Inj b f g); auto.
    - exfalso. now apply (energy_power a f' Ha' f).
    - apply (Inj b g g'); auto. rewrite <- E, <- E', (like_functional a f (or_intror Ha) f' (or_intror Ha')). reflexivity.
  Qed.
  Lemma same_amount_sym a x b y : same_amount k_B c2 a x b y -> same_amount k_B c2 b y a x.
  Proof. intros [d z|a0 b0 f g z w Ha Hb E|a0 b0 f g z w Ha Hb E]; [constructor|eapply SA_energy; eauto|eapply SA_power; eauto]. Qed.
  Lemma same_amount_trans a x b y c z : same_amount k_B c2 a x b y -> same_amount k_B c2 b y c z -> same_amount k_B c2 a x c z.
  Proof.
    intros H1 H2. destruct H1 as [d x|a b f g x y Ha Hb E|a b f g x y Ha Hb E]; [exact H2| |].
    - inversion H2 as [d' x'|a' b' f' g' x' y'' Ha' Hb' E'|a' b' f' g' x' y'' Ha' Hb' E']; subst.
      + eapply SA_energy; eauto.
      + eapply SA_energy; [exact Ha|exact Hb'|]. rewrite E, <- E'. now rewrite (like_functional b g (or_introl Hb) f' (or_introl Ha')).
      + exfalso. now apply (energy_power b g Hb f').
    - inversion H2 as [d' x'|a' b' f' g' x' y'' Ha' Hb' E'|a' b' f' g' x' y'' Ha' Hb' E']; subst.
      + eapply SA_power; eauto.
      + exfalso. now apply (energy_power b f' Ha' g).
      + eapply SA_power; [exact Ha|exact Hb'|]. rewrite E, <- E'. now rewrite (like_functional b g (or_intror Hb) f' (or_intror Ha')).
  Qed.
  Lemma same_amount_scale a x b y l : same_amount k_B c2 a x b y -> same_amount k_B c2 a (l * x) b (l * y).
  Proof.
    assert (L : forall b f, (energy_like b f \/ power_like b f) -> forall x, f k_B c2 (l * x) = l * f k_B c2 x) by (intros b0 f [H|H] z; destruct H; ring).
    intros [d z|a0 b0 f g z w Ha Hb E|a0 b0 f g z w Ha Hb E]; [constructor| |].
    - eapply SA_energy; [exact Ha|exact Hb|]. rewrite (L a0 f), (L b0 g), E; auto.
    - eapply SA_power; [exact Ha|exact Hb|]. rewrite (L a0 f), (L b0 g), E; auto.
  Qed.
  Lemma convertible_refl a : convertible a a.
  Proof. now left. Qed.
  Lemma convertible_sym a b : convertible a b -> convertible b a.
  Proof. intros [-> |[(f & g & H)|(f & g & H)]]; [now left|right; left; exists g, f; tauto|right; right; exists g, f; tauto]. Qed.
  Lemma convertible_trans a b c : convertible a b -> convertible b c -> convertible a c.
  Proof.
    intros [-> |H1] H2; [exact H2|]. destruct H2 as [<- |H2]; [now right|]. right.
    destruct H1 as [(f & g & Ha & Hb)|(f & g & Ha & Hb)], H2 as [(f' & g' & Hb' & Hc)|(f' & g' & Hb' & Hc)].
    - left. eauto.
    - exfalso. now apply (energy_power b g Hb f').
    - exfalso. now apply (energy_power b f' Hb' g).
    - right. eauto.
  Qed.
  Lemma same_amount_convertible a x b y : same_amount k_B c2 a x b y -> convertible a b.
  Proof. intros [d z|a0 b0 f g z w Ha Hb E|a0 b0 f g z w Ha Hb E]; [now left|right; left; eauto|right; right; eauto]. Qed.

  (** ** raw_uc *)
  Variable parse : string -> option quantity.
  Variable S0 : sane parse.
  Lemma raw_uc_spec v s t q r : parse s = Some q -> parse t = Some r ->
    (convertible (dimension_of q) (dimension_of r) -> exists w, raw_uc k_B c2 parse v s t = Ok w /\
       same_amount k_B c2 (dimension_of q) (v * in_si q) (dimension_of r) (w * in_si r)) /\
    (~ convertible (dimension_of q) (dimension_of r) -> raw_uc k_B c2 parse v s t = Err EType).
  Proof.
    intros Eq Er. destruct (S0 s q Eq) as [Mq Sq], (S0 t r Er) as [Mr Sr]. unfold raw_uc, Unit_of, Quantity_of. rewrite Eq, Er. cbn [bind].
    destruct q as [m [sq a]], r as [n [sr b]]. unfold dimension_of, in_si. cbn [fst snd scale dim] in *. change {| scale := sq; dim := a |} with (unit_at sq a). change {| scale := sr; dim := b |} with (unit_at sr b).
    assert (Fall : (convertible a b -> exists w, (do x <- to (v * m, unit_at sq a) (unit_at sr b); if Reqb n 0 then Err EZeroDivision else Ok (x / n)) = Ok w /\ same_amount k_B c2 a (v * (m * sq)) b (w * (n * sr))) /\
      (~ convertible a b -> (do x <- to (v * m, unit_at sq a) (unit_at sr b); if Reqb n 0 then Err EZeroDivision else Ok (x / n)) = Err EType)).
    { destruct (to_spec (v * m) sq sr a b Sq Sr) as [H1 H2]. split.
      - intro C. destruct (H1 C) as (w & -> & A). cbn [bind]. destruct (Reqb_spec n 0); [lra|]. exists (w / n). split; [reflexivity|].
        replace (v * (m * sq)) with (v * m * sq) by ring. replace (w / n * (n * sr)) with (w * sr) by (field; lra). exact A.
      - intro C. now rewrite (H2 C). }
    destruct (Reqb_spec m 1) as [-> |M1]; cbn [bind]; [|exact Fall]. destruct (Reqb_spec n 1) as [-> |N1]; cbn [bind]; [|exact Fall].
    destruct (to_spec v sq sr a b Sq Sr) as [H1 H2]. split.
    - intro C. destruct (H1 C) as (w & -> & A). exists w. split; [reflexivity|]. now rewrite !Rmult_1_l.
    - intro C. now rewrite (H2 C).
  Qed.
  Lemma raw_uc_unknown v s t : parse s = None \/ parse t = None -> raw_uc k_B c2 parse v s t = Err EAttribute.
  Proof.
    intro H. unfold raw_uc, Unit_of, Quantity_of. destruct (parse s) as [q|] eqn:Es; [|reflexivity]. destruct H as [H|H]; [discriminate|]. rewrite H. cbn [bind]. destruct (Reqb (fst q) 1); reflexivity.
  Qed.
  Lemma raw_uc_ok v s t w : raw_uc k_B c2 parse v s t = Ok w -> exists q r, parse s = Some q /\ parse t = Some r /\
    same_amount k_B c2 (dimension_of q) (v * in_si q) (dimension_of r) (w * in_si r).
  Proof.
    intro E. destruct (parse s) as [q|] eqn:Es; [|rewrite raw_uc_unknown in E by auto; discriminate]. destruct (parse t) as [r|] eqn:Et; [|rewrite raw_uc_unknown in E by auto; discriminate].
    exists q, r. split; [reflexivity|]. split; [reflexivity|]. destruct (raw_uc_spec v s t q r Es Et) as [H1 H2]. destruct (convertible_dec (dimension_of q) (dimension_of r)) as [C|C].
    - destruct (H1 C) as (w' & E' & A). rewrite E in E'. injection E' as ->. exact A.
    - rewrite (H2 C) in E. discriminate.
  Qed.
  Lemma raw_uc_eq v s t q r w : parse s = Some q -> parse t = Some r -> same_amount k_B c2 (dimension_of q) (v * in_si q) (dimension_of r) (w * in_si r) -> raw_uc k_B c2 parse v s t = Ok w.
  Proof.
    intros Es Et A. destruct (raw_uc_spec v s t q r Es Et) as [H1 _]. destruct (H1 (same_amount_convertible _ _ _ _ A)) as (w' & -> & A'). f_equal.
    pose proof (same_amount_unique _ _ _ _ _ A A') as U. destruct (S0 t r Et) as [P1 P2]. apply (Rmult_eq_reg_r (in_si r)); [now symmetry|]. unfold in_si. nra.
  Qed.
End Convert.
