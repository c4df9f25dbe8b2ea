(** Base: result type and the Python / numpy list helpers used by the models.

    Nothing here models a function of /repo by itself; each helper is the meaning of a
    Python built-in or numpy call that the modelled functions use. *)
From Coq Require Export Reals List Lia Lra Psatz ZArith Bool Arith.
Export ListNotations.
Open Scope R_scope.

(** Python exceptions that the modelled code can raise
    (/repo/tokamak_neutron_source/error.py:12-38 and built-ins). *)
Inductive exn :=
| EReactivity        (* error.ReactivityError *)
| EEnergySpectrum    (* error.EnergySpectrumError *)
| EFluxSurface       (* error.FluxSurfaceError *)
| ETNS               (* error.TNSError itself *)
| EValue | EKey | EIndex | EType | ENotImplemented | EZeroDivision | EAttribute.

(** Outcome of a call: a value, a raised exception, or a floating-point result that is not a
    finite number (numpy returns inf or nan with a RuntimeWarning and carries on). *)
Inductive res (A : Type) :=
| Ok (a : A)
| Err (e : exn)
| NonFinite.
Arguments Ok {A} a. Arguments Err {A} e. Arguments NonFinite {A}.

Definition bind {A B} (x : res A) (f : A -> res B) : res B :=
  match x with Ok a => f a | Err e => Err e | NonFinite => NonFinite end.
Notation "'do' x <- e ; k" := (bind e (fun x => k))
  (at level 200, x pattern, e at level 100, k at level 200, right associativity).

Definition res_map {A B} (f : A -> B) (x : res A) : res B := bind x (fun a => Ok (f a)).

(** A list comprehension [f(a) for a in l] whose body may raise: the first failure wins. *)
Fixpoint mapM {A B} (f : A -> res B) (l : list A) : res (list B) :=
  match l with
  | [] => Ok []
  | a :: r => do b <- f a; do bs <- mapM f r; Ok (b :: bs)
  end.

(** ** Decidable real comparisons *)
Definition Rltb (x y : R) : bool := if Rlt_dec x y then true else false.
Definition Rleb (x y : R) : bool := if Rle_dec x y then true else false.
Definition Reqb (x y : R) : bool := if Req_EM_T x y then true else false.

Lemma Rltb_spec x y : reflect (x < y) (Rltb x y).
Proof. unfold Rltb; destruct (Rlt_dec x y); constructor; assumption. Qed.
Lemma Rleb_spec x y : reflect (x <= y) (Rleb x y).
Proof. unfold Rleb; destruct (Rle_dec x y); constructor; assumption. Qed.
Lemma Reqb_spec x y : reflect (x = y) (Reqb x y).
Proof. unfold Reqb; destruct (Req_EM_T x y); constructor; assumption. Qed.
Lemma Reqb_refl x : Reqb x x = true.
Proof. destruct (Reqb_spec x x); congruence. Qed.
Lemma Reqb_true x y : Reqb x y = true <-> x = y.
Proof. destruct (Reqb_spec x y); split; congruence. Qed.
Lemma Rltb_true x y : Rltb x y = true <-> x < y.
Proof. destruct (Rltb_spec x y); split; congruence. Qed.
Lemma Rleb_true x y : Rleb x y = true <-> x <= y.
Proof. destruct (Rleb_spec x y); split; congruence. Qed.
Lemma Reqb_false x y : Reqb x y = false <-> x <> y.
Proof. destruct (Reqb_spec x y); split; congruence. Qed.
Lemma Rltb_false x y : Rltb x y = false <-> y <= x.
Proof. destruct (Rltb_spec x y); split; intros; try congruence; lra. Qed.
Lemma Rleb_false x y : Rleb x y = false <-> y < x.
Proof. destruct (Rleb_spec x y); split; intros; try congruence; lra. Qed.

(** ** Guarded arithmetic *)

(** numpy float division: a zero divisor gives inf or nan. *)
Definition np_div (x y : R) : res R := if Reqb y 0 then NonFinite else Ok (x / y).
(** np.sqrt: nan on negative numbers. *)
Definition np_sqrt (x : R) : res R := if Rltb x 0 then NonFinite else Ok (sqrt x).
(** x ** y for floats, y real: negative bases (with non-integral exponents) give nan,
    0 ** y is 0 for y > 0, 1 for y = 0 and inf for y < 0. *)
Definition np_pow (x y : R) : res R :=
  if Rltb 0 x then Ok (Rpower x y)
  else if Reqb x 0 then
    (if Rltb 0 y then Ok 0 else if Reqb y 0 then Ok 1 else NonFinite)
  else NonFinite.

Lemma np_div_ok x y : y <> 0 -> np_div x y = Ok (x / y).
Proof. unfold np_div; destruct (Reqb_spec y 0); congruence. Qed.
Lemma np_sqrt_ok x : 0 <= x -> np_sqrt x = Ok (sqrt x).
Proof. unfold np_sqrt; destruct (Rltb_spec x 0); [lra|reflexivity]. Qed.
Lemma np_pow_pos x y : 0 < x -> np_pow x y = Ok (Rpower x y).
Proof. unfold np_pow; intro H; destruct (Rltb_spec 0 x); [reflexivity|lra]. Qed.
Lemma np_pow_0 y : 0 < y -> np_pow 0 y = Ok 0.
Proof.
  unfold np_pow; intro H; destruct (Rltb_spec 0 0); [lra|].
  rewrite Reqb_refl; destruct (Rltb_spec 0 y); [reflexivity|lra].
Qed.

(** np.clip(x, lo, hi) = minimum(maximum(x, lo), hi). *)
Definition clip (lo hi x : R) : R := Rmin (Rmax x lo) hi.

Lemma clip_range lo hi x : lo <= hi -> lo <= clip lo hi x <= hi.
Proof.
  intro H; unfold clip; split.
  - apply Rmin_glb; [apply Rmax_r|exact H].
  - apply Rmin_r.
Qed.
Lemma clip_id lo hi x : lo <= x <= hi -> clip lo hi x = x.
Proof. intros [H1 H2]; unfold clip; rewrite Rmax_left by lra; apply Rmin_left; lra. Qed.
Lemma clip_low lo hi x : lo <= hi -> x <= lo -> clip lo hi x = lo.
Proof. intros H1 H2; unfold clip; rewrite Rmax_right by lra; apply Rmin_left; lra. Qed.
Lemma clip_high lo hi x : lo <= hi -> hi <= x -> clip lo hi x = hi.
Proof. intros H1 H2; unfold clip. rewrite Rmax_left by lra. apply Rmin_right; lra. Qed.
Lemma clip_clip lo hi x : lo <= hi -> clip lo hi (clip lo hi x) = clip lo hi x.
Proof. intro H; apply clip_id, clip_range, H. Qed.
Lemma clip_mono lo hi x y : x <= y -> clip lo hi x <= clip lo hi y.
Proof.
  intro H; unfold clip. apply Rmin_glb.
  - eapply Rle_trans; [apply Rmin_l|]. apply Rmax_lub; [eapply Rle_trans; [exact H|apply Rmax_l]|apply Rmax_r].
  - apply Rmin_r.
Qed.

(** ** Sums *)

(** Python's sum(l) / np.sum(l): left to right from 0. *)
Definition pysum (l : list R) : R := fold_left Rplus l 0.

Lemma fold_left_Rplus_acc l a : fold_left Rplus l a = a + fold_left Rplus l 0.
Proof.
  revert a; induction l as [|x l IH]; intro a; cbn; [ring|].
  rewrite (IH (a + x)), (IH (0 + x)); ring.
Qed.
Lemma pysum_nil : pysum [] = 0. Proof. reflexivity. Qed.
Lemma pysum_cons x l : pysum (x :: l) = x + pysum l.
Proof. unfold pysum; cbn. rewrite fold_left_Rplus_acc; ring. Qed.
Lemma pysum_app l1 l2 : pysum (l1 ++ l2) = pysum l1 + pysum l2.
Proof. induction l1 as [|x l IH]; cbn [app]; rewrite ?pysum_cons, ?pysum_nil, ?IH; ring. Qed.
Lemma pysum_scale c l : pysum (map (fun x => x * c) l) = pysum l * c.
Proof. induction l as [|x l IH]; cbn [map]; rewrite ?pysum_cons, ?pysum_nil, ?IH; ring. Qed.
Lemma pysum_scale_l c l : pysum (map (fun x => c * x) l) = c * pysum l.
Proof. induction l as [|x l IH]; cbn [map]; rewrite ?pysum_cons, ?pysum_nil, ?IH; ring. Qed.
Lemma pysum_nonneg l : Forall (fun x => 0 <= x) l -> 0 <= pysum l.
Proof. induction 1; rewrite ?pysum_cons, ?pysum_nil; lra. Qed.
Lemma pysum_map_plus {A} (f g : A -> R) l :
  pysum (map (fun x => f x + g x) l) = pysum (map f l) + pysum (map g l).
Proof. induction l as [|x l IH]; cbn [map]; rewrite ?pysum_cons, ?pysum_nil, ?IH; ring. Qed.
Lemma pysum_rev l : pysum (rev l) = pysum l.
Proof. induction l as [|x l IH]; cbn [rev]; rewrite ?pysum_app, ?pysum_cons, ?pysum_nil, ?IH; ring. Qed.
Lemma pysum_zero l : Forall (fun x => x = 0) l -> pysum l = 0.
Proof. induction 1 as [|x l H _ IH]; rewrite ?pysum_cons, ?pysum_nil; lra. Qed.
Lemma pysum_nonneg_zero l :
  Forall (fun x => 0 <= x) l -> pysum l = 0 -> Forall (fun x => x = 0) l.
Proof.
  induction 1 as [|x l H Hl IH]; [constructor|]; rewrite pysum_cons; intro E.
  pose proof (pysum_nonneg l Hl). constructor; [lra|apply IH; lra].
Qed.
Lemma pysum_pos_ex l : Forall (fun x => 0 <= x) l -> Exists (fun x => 0 < x) l -> 0 < pysum l.
Proof.
  induction 1 as [|x l H Hl IH]; intro E; inversion E; subst; rewrite pysum_cons.
  - pose proof (pysum_nonneg l Hl); lra.
  - specialize (IH H1); lra.
Qed.

(** ** Elementwise binary operation on two arrays of one length. *)
Fixpoint map2 {A B C} (f : A -> B -> C) (la : list A) (lb : list B) : list C :=
  match la, lb with
  | a :: la', b :: lb' => f a b :: map2 f la' lb'
  | _, _ => []
  end.

Lemma map2_length {A B C} (f : A -> B -> C) la lb :
  length (map2 f la lb) = Nat.min (length la) (length lb).
Proof. revert lb; induction la as [|a la IH]; intros [|b lb]; cbn; auto. Qed.
Lemma map2_length_eq {A B C} (f : A -> B -> C) la lb :
  length la = length lb -> length (map2 f la lb) = length la.
Proof. rewrite map2_length; lia. Qed.
Lemma map2_nth_error {A B C} (f : A -> B -> C) la lb i a b :
  nth_error la i = Some a -> nth_error lb i = Some b -> nth_error (map2 f la lb) i = Some (f a b).
Proof.
  revert la lb; induction i as [|i IH]; intros [|x la] [|y lb]; cbn; try congruence; apply IH.
Qed.
Lemma map2_map {A B C D E} (f : C -> D -> E) (g : A -> C) (h : B -> D) la lb :
  map2 f (map g la) (map h lb) = map2 (fun a b => f (g a) (h b)) la lb.
Proof. revert lb; induction la as [|a la IH]; intros [|b lb]; cbn; congruence. Qed.
Lemma map_map2 {A B C D} (h : C -> D) (f : A -> B -> C) la lb :
  map h (map2 f la lb) = map2 (fun a b => h (f a b)) la lb.
Proof. revert lb; induction la as [|a la IH]; intros [|b lb]; cbn; congruence. Qed.
Lemma map2_diag {A C} (f : A -> A -> C) l : map2 f l l = map (fun a => f a a) l.
Proof. induction l; cbn; congruence. Qed.
Lemma map2_combine {A B C} (f : A -> B -> C) la lb :
  map2 f la lb = map (fun p => f (fst p) (snd p)) (combine la lb).
Proof. revert lb; induction la as [|a la IH]; intros [|b lb]; cbn; congruence. Qed.
Lemma map2_ext_in {A B C} (f g : A -> B -> C) la lb :
  (forall a b, In (a, b) (combine la lb) -> f a b = g a b) -> map2 f la lb = map2 g la lb.
Proof. rewrite !map2_combine; intro H; apply map_ext_in; intros [a b] Hab; apply H, Hab. Qed.

(** np.dot of two vectors. *)
Definition dot (x y : list R) : R := pysum (map2 Rmult x y).

(** np.trapezoid(y, x) = sum of (x[i+1]-x[i]) * (y[i+1]+y[i]) / 2. *)
Fixpoint trapezoid (y x : list R) : R :=
  match y, x with
  | y0 :: ((y1 :: _) as y'), x0 :: ((x1 :: _) as x') =>
      (x1 - x0) * (y1 + y0) / 2 + trapezoid y' x'
  | _, _ => 0
  end.

Lemma trapezoid_cons y0 y1 y x0 x1 x :
  trapezoid (y0 :: y1 :: y) (x0 :: x1 :: x) = (x1 - x0) * (y1 + y0) / 2 + trapezoid (y1 :: y) (x1 :: x).
Proof. reflexivity. Qed.

(** np.linspace(a, b, n) with the end point (n = 1 gives [a]). *)
Definition linspace (a b : R) (n : nat) : list R :=
  match n with
  | O => []
  | S O => [a]
  | S m => map (fun i => a + INR i * ((b - a) / INR m)) (seq 0 n)
  end.
(** np.linspace(a, b, n, endpoint=False). *)
Definition linspace_open (a b : R) (n : nat) : list R :=
  map (fun i => a + INR i * ((b - a) / INR n)) (seq 0 n).

Lemma linspace_length a b n : length (linspace a b n) = n.
Proof. destruct n as [|[|n]]; cbn [linspace length]; auto. now rewrite map_length, seq_length. Qed.
Lemma linspace_open_length a b n : length (linspace_open a b n) = n.
Proof. unfold linspace_open; now rewrite map_length, seq_length. Qed.

(** np.min / np.max of a non-empty array; numpy raises ValueError on an empty one. *)
Definition np_min (l : list R) : res R :=
  match l with [] => Err EValue | a :: r => Ok (fold_left Rmin r a) end.
Definition np_max (l : list R) : res R :=
  match l with [] => Err EValue | a :: r => Ok (fold_left Rmax r a) end.

Lemma fold_Rmin_spec r a :
  (forall x, In x (a :: r) -> fold_left Rmin r a <= x) /\ In (fold_left Rmin r a) (a :: r).
Proof.
  revert a; induction r as [|b r IH]; intro a; cbn [fold_left].
  - split; [intros x [->|[]]; lra|now left].
  - destruct (IH (Rmin a b)) as [H1 H2]; split.
    + intros x [->|[->|Hx]].
      * eapply Rle_trans; [apply H1; now left|apply Rmin_l].
      * eapply Rle_trans; [apply H1; now left|apply Rmin_r].
      * apply H1; now right.
    + destruct H2 as [H2|H2]; [rewrite <- H2; unfold Rmin; destruct Rle_dec; cbn; auto|cbn; auto].
Qed.
Lemma fold_Rmax_spec r a :
  (forall x, In x (a :: r) -> x <= fold_left Rmax r a) /\ In (fold_left Rmax r a) (a :: r).
Proof.
  revert a; induction r as [|b r IH]; intro a; cbn [fold_left].
  - split; [intros x [->|[]]; lra|now left].
  - destruct (IH (Rmax a b)) as [H1 H2]; split.
    + intros x [->|[->|Hx]].
      * eapply Rle_trans; [apply Rmax_l|apply H1; now left].
      * eapply Rle_trans; [apply Rmax_r|apply H1; now left].
      * apply H1; now right.
    + destruct H2 as [H2|H2]; [rewrite <- H2; unfold Rmax; destruct Rle_dec; cbn; auto|cbn; auto].
Qed.
Lemma np_min_spec l m : np_min l = Ok m -> In m l /\ forall x, In x l -> m <= x.
Proof.
  destruct l as [|a r]; cbn; [congruence|]; intro H; injection H as <-.
  destruct (fold_Rmin_spec r a); split; assumption.
Qed.
Lemma np_max_spec l m : np_max l = Ok m -> In m l /\ forall x, In x l -> x <= m.
Proof.
  destruct l as [|a r]; cbn; [congruence|]; intro H; injection H as <-.
  destruct (fold_Rmax_spec r a); split; assumption.
Qed.

(** ** mapM facts *)
Lemma mapM_Ok_length {A B} (f : A -> res B) l l' : mapM f l = Ok l' -> length l' = length l.
Proof.
  revert l'; induction l as [|a l IH]; cbn; intros l' H; [injection H as <-; reflexivity|].
  destruct (f a) as [b|e|]; cbn in H; try congruence.
  destruct (mapM f l) as [bs|e|] eqn:E; cbn in H; try congruence.
  injection H as <-; cbn; f_equal; now apply IH.
Qed.
Lemma mapM_Ok_Forall2 {A B} (f : A -> res B) l l' :
  mapM f l = Ok l' <-> Forall2 (fun a b => f a = Ok b) l l'.
Proof.
  revert l'; induction l as [|a l IH]; cbn; intros l'.
  - split; [intro H; injection H as <-; constructor|intro H; inversion H; reflexivity].
  - split.
    + destruct (f a) as [b|e|] eqn:Ea; cbn; try congruence.
      destruct (mapM f l) as [bs|e|] eqn:E; cbn; try congruence.
      intro H; injection H as <-; constructor; [exact Ea|apply IH; reflexivity].
    + intro H; inversion H as [|? b ? bs Hb Hbs]; subst. rewrite Hb; cbn.
      apply IH in Hbs; rewrite Hbs; reflexivity.
Qed.
Lemma mapM_pure {A B} (f : A -> res B) (g : A -> B) l :
  (forall a, In a l -> f a = Ok (g a)) -> mapM f l = Ok (map g l).
Proof.
  induction l as [|a l IH]; cbn; intro H; [reflexivity|].
  rewrite (H a (or_introl eq_refl)); cbn.
  rewrite IH by (intros; apply H; now right); reflexivity.
Qed.
Lemma mapM_nth_error {A B} (f : A -> res B) l l' i a :
  mapM f l = Ok l' -> nth_error l i = Some a -> exists b, nth_error l' i = Some b /\ f a = Ok b.
Proof.
  intro H; apply mapM_Ok_Forall2 in H. revert i; induction H as [|x y l l' Hxy _ IH]; intros [|i]; cbn; try congruence.
  - intro E; injection E as <-; eauto.
  - apply IH.
Qed.
