(** Lemmas for C85 (continued): sums over the cells against the integral along the boundary. *)
From Coq Require Import Reals Lra Lia ZArith List Bool.
From Coquelicot Require Import Coquelicot.
From Verif Require Import Base Space SpaceProofs SpecSpace Geometry GeometryProofs SpecGeometry SpecConvex ConvexProofs SpecGrid GridProofs GridProofs2 GridConvex SpecIntegral IntegralProofs.
Import ListNotations.
Open Scope R_scope.

Ltac toR := match goal with |- @eq _ ?a ?b => change (@eq R a b) end.
Lemma sumf_seq_diff (f : nat -> R) k n : sumf f (seq 0 (k + n)) - sumf f (seq 0 k) = sumf f (seq k n).
Proof. rewrite seq_app, sumf_app. cbn [Nat.add]. ring. Qed.
Lemma upto_mono a h u v : 0 < h -> a <= u <= v -> (upto a h u <= upto a h v)%nat.
Proof.
  intros Hh [H1 H2]. destruct (Nat.le_gt_cases (upto a h u) (upto a h v)) as [Y|Y]; [exact Y|]. exfalso. apply (upto_iff a h Hh u (upto a h v) ltac:(lra)) in Y.
  destruct (upto_spec a h Hh v ltac:(lra)) as [_ B]. lra.
Qed.
(** The rows between u and v. *)
Lemma sum_interval a h phi u v wp Bp : 0 < h -> a <= u <= v -> cont1 phi -> 0 <= wp ->
  (forall j t, u < node a h j <= v -> Rabs (t - node a h j) <= h / 2 -> Rabs (phi t - phi (node a h j)) <= wp) ->
  (forall t, Rabs (t - u) <= h / 2 \/ Rabs (t - v) <= h / 2 -> Rabs (phi t) <= Bp) ->
  Rabs (h * (sumf (fun j => phi (node a h j)) (seq 0 (upto a h v)) - sumf (fun j => phi (node a h j)) (seq 0 (upto a h u))) - RInt phi u v) <= (v - u + h) * wp + h * Bp.
Proof.
  intros Hh [H1 H2] Hc Pw Hw Hb. pose proof (upto_mono a h u v Hh (conj H1 H2)) as Le. set (k := upto a h u) in *. set (n := (upto a h v - k)%nat).
  assert (Eu : upto a h v = (k + n)%nat) by (unfold n; lia).
  rewrite Eu, sumf_seq_diff. pose proof (upto_near a h Hh u H1) as Nu. pose proof (upto_near a h Hh v ltac:(lra)) as Nv. fold k in Nu. rewrite Eu in Nv.
  assert (Rm : Rabs (h * sumf (fun j => phi (node a h j)) (seq k n) - RInt phi (node a h k - h / 2) (node a h (k + n) - h / 2)) <= INR n * (h * wp)).
  { apply riemann; [exact Hh|exact Hc|]. intros j t Hj Ht. apply Hw; [|exact Ht]. split.
    - destruct (Rlt_le_dec u (node a h j)) as [|Y]; [assumption|]. apply (upto_iff a h Hh u j H1) in Y. fold k in Y. lia.
    - apply (upto_iff a h Hh v j ltac:(lra)). lia. }
  set (p := node a h k - h / 2) in *. set (q := node a h (k + n) - h / 2) in *.
  assert (In_ : INR n * h = q - p) by (unfold q, p, node; rewrite plus_INR; ring).
  assert (A : INR n * (h * wp) <= (v - u + h) * wp). { rewrite <- Rmult_assoc. apply Rmult_le_compat_r; [exact Pw|]. rewrite In_. apply abs_inv in Nu, Nv. lra. }
  assert (D : RInt phi u v = RInt phi p q + RInt phi u p - RInt phi v q).
  { pose proof (RInt_sub phi u p q Hc). pose proof (RInt_sub phi u v q Hc). lra. }
  assert (B1 : Rabs (RInt phi u p) <= h / 2 * Bp).
  { assert (0 <= Bp) by (eapply Rle_trans; [apply Rabs_pos|]; apply (Hb p); left; exact Nu). eapply Rle_trans; [apply (RInt_bound phi u p Bp Hc)|apply Rmult_le_compat_r; assumption]. intros t Ht. apply Hb. left. apply abs_inv in Nu. apply Rabs_le. revert Ht. unfold Rmin, Rmax. destruct (Rle_dec u p); lra. }
  assert (B2 : Rabs (RInt phi v q) <= h / 2 * Bp).
  { assert (0 <= Bp) by (eapply Rle_trans; [apply Rabs_pos|]; apply (Hb q); right; exact Nv). eapply Rle_trans; [apply (RInt_bound phi v q Bp Hc)|apply Rmult_le_compat_r; assumption]. intros t Ht. apply Hb. right. apply abs_inv in Nv. apply Rabs_le. revert Ht. unfold Rmin, Rmax. destruct (Rle_dec v q); lra. }
  apply abs_inv in Rm, B1, B2. apply Rabs_le. lra.
Qed.

Section Sum.
  Variable g : R -> R -> R.
  Variable B : R.
  Hypothesis HB : forall x z, Rabs (g x z) <= B.
  Hypothesis Hu : forall eps, 0 < eps -> exists del, 0 < del /\ forall x z x' z', Rabs (x - x') < del -> Rabs (z - z') < del -> Rabs (g x z - g x' z') < eps.
  Notation Gi := (Gh g).

  (** *** The integral along an edge *)
  Definition Iedge (a b : R * R) : R := if Req_EM_T (snd a) (snd b) then 0 else RInt (fun z => Gi (meet a b z) z) (snd a) (snd b).
  Lemma Iedge_ok a b : edge_integral Gi a b (Iedge a b).
  Proof.
    unfold edge_integral, Iedge. destruct (Req_EM_T (snd a) (snd b)) as [E|N].
    - apply (is_RInt_ext (V := R_NormedModule) (fun _ => 0)); [intros t _; toR; rewrite E; ring|]. pose proof (is_RInt_const (V := R_NormedModule) 0 1 0) as Q. replace (scal (1 - 0) (0 : R_NormedModule)) with 0 in Q; [exact Q|]. toR. change ((1 - 0) * 0) with (scal (1 - 0) 0). unfold scal; cbn. unfold mult; cbn. ring.
    - set (phi := fun z => Gi (meet a b z) z). assert (Hc : cont1 phi) by (apply (phi_cont g B HB Hu a b); lra).
      apply (is_RInt_ext (V := R_NormedModule) (fun t => scal (snd b - snd a) (phi ((snd b - snd a) * t + snd a)))).
      + intros t _. toR. unfold phi. change (scal ?u ?v) with (u * v). replace (meet a b ((snd b - snd a) * t + snd a)) with (fst a + t * (fst b - fst a)) by (unfold meet; field; lra).
        replace ((snd b - snd a) * t + snd a) with (snd a + t * (snd b - snd a)) by ring. ring.
      + apply (is_RInt_comp_lin (V := R_NormedModule) phi). replace ((snd b - snd a) * 0 + snd a) with (snd a) by ring. replace ((snd b - snd a) * 1 + snd a) with (snd b) by ring.
        apply (RInt_correct (V := R_CompleteNormedModule)). now apply cont1_ex.
  Qed.
  Lemma Gi_bound x z : Rabs (Gi x z) <= Rabs x * B.
  Proof. unfold Gh. replace (Rabs x) with (Rabs (x - 0)) by (f_equal; ring). apply RInt_bound; [apply (g_cont g Hu)|]. intros; apply HB. Qed.

  Variable l : list (R * R).
  Hypothesis Hl : loop l.
  Variables x0 z0 h X Zlo Zhi w : R.
  Variables M K c : nat.
  Hypothesis Hh : 0 < h.
  Hypothesis Hx : forall v, In v l -> x0 < fst v < node x0 h M /\ 0 <= fst v <= X.
  Hypothesis Hx0 : - (2 * h) <= x0.
  Hypothesis Hz : forall v, In v l -> z0 <= snd v < node z0 h K /\ Zlo <= snd v <= Zhi.
  Hypothesis Hlo : z0 <= Zlo.
  Hypothesis HK : Zhi < node z0 h K.
  Hypothesis Hlh : Zlo <= Zhi.
  Hypothesis Hc : crossed_at_most c l.
  Hypothesis Hw : forall x z x' z', Rabs (x - x') <= h / 2 -> Rabs (z - z') <= h / 2 -> Rabs (g x z - g x' z') <= w.
  Notation xs := (row x0 h M).
  Notation zs := (row z0 h K).
  Lemma w_pos : 0 <= w.
  Proof. eapply Rle_trans; [apply Rabs_pos|]. apply (Hw 0 0 0 0); replace (0 - 0) with 0 by ring; rewrite Rabs_R0; lra. Qed.
  Lemma X_pos : 0 <= X.
  Proof. destruct Hl as (v & r & -> & _). destruct (Hx v (or_introl eq_refl)). lra. Qed.
  Lemma Hw_z t z z' : Rabs (z - z') <= h / 2 -> Rabs (g t z - g t z') <= w.
  Proof. intro H. apply Hw; [|exact H]. replace (t - t) with 0 by ring. rewrite Rabs_R0. lra. Qed.
  Lemma Hw_x z x x' : Rabs (x - x') <= h / 2 -> Rabs (g x z - g x' z) <= w.
  Proof. intro H. apply Hw; [exact H|]. replace (z - z) with 0 by ring. rewrite Rabs_R0. lra. Qed.

  (** *** One row and one edge *)
  Definition kk (z : R) (a b : R * R) : nat := if Rltb (snd a) (snd b) then upto x0 h (meet a b z) else below x0 h (meet a b z).
  Definition part (k : nat) (z : R) : R := sumf (fun i => g (node x0 h i) z * h) (seq 0 k).
  Lemma row_edge2 z a b : edge l a b -> sumf (fun x => ww (x, z) a b * (g x z * h)) xs = sigma z a b * part (kk z a b) z.
  Proof.
    intro E. unfold sigma, ww, goes_up, goes_down, at_or_above, kk. cbn [snd].
    destruct (Rleb_spec z (snd a)) as [A|A], (Rleb_spec z (snd b)) as [Bb|Bb]; cbn [negb andb b2r].
    - rewrite (sumf_ext _ (fun _ => 0)) by (intros; ring). rewrite sumf_zero. ring.
    - destruct (meet_range l x0 h X M Hx a b z E ltac:(lra)) as [R1 R2]. destruct (Rltb_spec (snd a) (snd b)); [lra|].
      rewrite (sumf_ext _ (fun x => -1 * (if Rltb x (meet a b z) then g x z * h else 0))).
      + rewrite sumf_scale, (row_sum x0 h _ _ (below x0 h (meet a b z)) M); [|apply below_max; [exact Hh|lra]|].
        * unfold part. ring.
        * intro i. pose proof (below_iff x0 h Hh (meet a b z) i ltac:(lra)) as Q. apply eq_true_iff_eq. rewrite Rltb_true, Nat.ltb_lt. exact Q.
      + intros x _. rewrite (turn_meet a b (x, z)) by lra. cbn [fst snd]. destruct (Rltb_spec ((snd b - snd a) * (meet a b z - x)) 0), (Rltb_spec x (meet a b z)); cbn [b2r]; try ring; exfalso; nra.
    - destruct (meet_range l x0 h X M Hx a b z E ltac:(lra)) as [R1 R2]. destruct (Rltb_spec (snd a) (snd b)); [|lra].
      rewrite (sumf_ext _ (fun x => 1 * (if Rleb x (meet a b z) then g x z * h else 0))).
      + rewrite sumf_scale, (row_sum x0 h _ _ (upto x0 h (meet a b z)) M); [|apply upto_max; [exact Hh|lra]|].
        * unfold part. ring.
        * intro i. pose proof (upto_iff x0 h Hh (meet a b z) i ltac:(lra)) as Q. apply eq_true_iff_eq. rewrite Rleb_true, Nat.ltb_lt. exact Q.
      + intros x _. rewrite (turn_meet a b (x, z)) by lra. cbn [fst snd]. destruct (Rleb_spec 0 ((snd b - snd a) * (meet a b z - x))), (Rleb_spec x (meet a b z)); cbn [b2r]; try ring; exfalso; nra.
    - rewrite (sumf_ext _ (fun _ => 0)) by (intros; ring). rewrite sumf_zero. ring.
  Qed.
  Definition err (z : R) (a b : R * R) : R := part (kk z a b) z + Gi (x0 - h / 2) z - Gi (meet a b z) z.
  Lemma err_bound z a b : edge l a b -> snd a < z <= snd b \/ snd b < z <= snd a -> Rabs (err z a b) <= (X + 3 * h) * w + B * (h / 2).
  Proof.
    intros E Hcr. destruct (meet_range l x0 h X M Hx a b z E Hcr) as [R1 R2]. set (m := meet a b z) in *. set (k := kk z a b).
    assert (N : Rabs (node x0 h k - h / 2 - m) <= h / 2). { unfold k, kk. fold m. destruct (Rltb (snd a) (snd b)); [apply upto_near; [exact Hh|lra]|apply below_near; [exact Hh|lra]]. }
    assert (Rm : Rabs (part k z - RInt (fun t => g t z) (x0 - h / 2) (node x0 h k - h / 2)) <= INR k * (h * w)).
    { pose proof (riemann (fun t => g t z) x0 h w 0 k Hh (g_cont g Hu z)) as Q. cbn [Nat.add] in Q. replace (node x0 h 0) with x0 in Q by (unfold node; cbn; ring).
      replace (part k z) with (h * sumf (fun j => g (node x0 h j) z) (seq 0 k)); [apply Q; intros; now apply Hw_x|]. rewrite <- sumf_scale. unfold part. apply sumf_ext. intros; ring. }
    rewrite <- (RInt_sub (fun t => g t z) 0 (x0 - h / 2) (node x0 h k - h / 2) (g_cont g Hu z)) in Rm. fold (Gh g (node x0 h k - h / 2) z) (Gh g (x0 - h / 2) z) in Rm.
    pose proof (Gh_mod g B HB Hu (node x0 h k - h / 2) z m z 0) as Q. rewrite Rmult_0_r, Rplus_0_r in Q. specialize (Q ltac:(intro t; replace (g t z - g t z) with 0 by ring; rewrite Rabs_R0; lra)).
    assert (P : INR k * (h * w) <= (X + 3 * h) * w). { rewrite <- Rmult_assoc. apply Rmult_le_compat_r; [apply w_pos|]. unfold node in N. apply abs_inv in N. lra. }
    assert (P2 : B * Rabs (node x0 h k - h / 2 - m) <= B * (h / 2)) by (apply Rmult_le_compat_l; [apply (B_pos g B HB)|exact N]).
    unfold err. fold k m. apply abs_inv in Rm, Q. apply Rabs_le. lra.
  Qed.

  Definition csum : R := sumf (fun p => g (fst p) (snd p) * (h * h)) (filter (mpl_inside l) (mesh xs zs)).
  Lemma csum_rows s : csum = s * h * (sumf (fun z => edge_sum (fun a b => sigma z a b * Gi (meet a b z) z) l) zs + sumf (fun z => edge_sum (fun a b => sigma z a b * err z a b) l) zs)
    + sumf (fun p => gap l s p * (g (fst p) (snd p) * (h * h))) (mesh xs zs).
  Proof.
    unfold csum. rewrite sumf_filter, !sumf_mesh, <- sumf_plus, <- sumf_scale, <- sumf_plus. apply sumf_ext. intros z _.
    rewrite <- edge_sum_plus.
    rewrite (edge_sum_ext _ (fun a b => sigma z a b * part (kk z a b) z + Gi (x0 - h / 2) z * (b2r (Rleb z (snd b)) - b2r (Rleb z (snd a))))) by (intros; unfold err, sigma; ring).
    rewrite edge_sum_plus, edge_sum_scale, (edge_sum_loop (fun v => b2r (Rleb z (snd v))) l Hl), Rmult_0_r, Rplus_0_r.
    rewrite <- (edge_sum_ext_edges (fun a b => sumf (fun x => ww (x, z) a b * (g x z * h)) xs)) by (intros; now apply row_edge2).
    rewrite <- sumf_edges, <- sumf_scale, <- sumf_plus. apply sumf_ext. intros x _. cbn [fst snd]. unfold gap.
    rewrite (edge_sum_ext _ (fun a b => (g x z * h) * ww (x, z) a b)) by (intros; ring). rewrite edge_sum_scale. destruct (mpl_inside l (x, z)); cbn [b2r]; ring.
  Qed.
  Lemma gap_sum2 ex s : (s = 1 \/ s = -1) -> sense ex s l -> Rabs (sumf (fun p => gap l s p * (g (fst p) (snd p) * (h * h))) (mesh xs zs)) <= INR (length ex) * ((INR c + 1) * (B * (h * h))).
  Proof.
    intros Hs S. pose proof (pos_INR c) as Pc. pose proof (B_pos g B HB) as PB. assert (Hh2 : 0 < h * h) by nra.
    apply few_terms; [apply Rmult_le_pos; [lra|apply Rmult_le_pos; lra]|apply mesh_NoDup; now apply row_NoDup| |].
    - intros p _ Np. unfold gap. rewrite <- (S p Np). ring.
    - intros p _. rewrite Rabs_mult. apply Rmult_le_compat; try apply Rabs_pos; [now apply gap_abs|]. rewrite Rabs_mult, (Rabs_pos_eq (h * h)) by lra. apply Rmult_le_compat_r; [lra|apply HB].
  Qed.

  (** *** The rows all together *)
  Lemma rows_err (e : R -> R * R -> R * R -> R) E1 : 0 <= E1 -> (forall z a b, edge l a b -> snd a < z <= snd b \/ snd b < z <= snd a -> Rabs (e z a b) <= E1) ->
    Rabs (h * sumf (fun z => edge_sum (fun a b => sigma z a b * e z a b) l) zs) <= E1 * INR c * (Zhi - Zlo + h).
  Proof.
    intros P1 He. pose proof (pos_INR c) as Pc.
    assert (Row : forall z, Rabs (edge_sum (fun a b => sigma z a b * e z a b) l) <= E1 * (INR c * (b2r (Rleb z Zhi) - b2r (Rleb z Zlo)))).
    { intro z. assert (Q : Rabs (edge_sum (fun a b => sigma z a b * e z a b) l) <= E1 * edge_sum (fun a b => Rabs (sigma z a b)) l).
      { rewrite <- edge_sum_scale. apply edge_sum_abs. intros a b E. rewrite Rabs_mult, Rmult_comm. unfold sigma. destruct (Rleb_spec z (snd a)) as [A|A], (Rleb_spec z (snd b)) as [Bb|Bb]; cbn [b2r].
        - replace (1 - 1) with 0 by ring. rewrite Rabs_R0. lra.
        - apply Rmult_le_compat_r; [apply Rabs_pos|]. apply He; [exact E|lra].
        - apply Rmult_le_compat_r; [apply Rabs_pos|]. apply He; [exact E|lra].
        - replace (0 - 0) with 0 by ring. rewrite Rabs_R0. lra. }
      apply Rle_trans with (1 := Q). apply Rmult_le_compat_l; [exact P1|].
      destruct (crossed_ex z l (loop_nonempty l Hl)) as (n & W & En).
      destruct (Rleb_spec z Zhi) as [A|A], (Rleb_spec z Zlo) as [Bb|Bb]; cbn [b2r].
      - rewrite (edge_sum_ext_edges _ (fun _ _ => 0 * 0)); [rewrite edge_sum_scale; lra|]. intros a b E. destruct (edge_In l a b E) as [Ia Ib]. destruct (Hz a Ia) as [_ Za]. destruct (Hz b Ib) as [_ Zb]. unfold sigma. destruct (Rleb_spec z (snd a)); [|lra]. destruct (Rleb_spec z (snd b)); [|lra]. cbn [b2r]. replace (1 - 1) with 0 by ring. rewrite Rabs_R0. ring.
      - rewrite <- En. specialize (Hc z n W). apply le_INR in Hc. lra.
      - lra.
      - rewrite (edge_sum_ext_edges _ (fun _ _ => 0 * 0)); [rewrite edge_sum_scale; lra|]. intros a b E. destruct (edge_In l a b E) as [Ia Ib]. destruct (Hz a Ia) as [_ Za]. destruct (Hz b Ib) as [_ Zb]. unfold sigma. destruct (Rleb_spec z (snd a)); [lra|]. destruct (Rleb_spec z (snd b)); [lra|]. cbn [b2r]. replace (0 - 0) with 0 by ring. rewrite Rabs_R0. ring. }
    rewrite Rabs_mult, (Rabs_pos_eq h) by lra.
    apply Rle_trans with (h * sumf (fun z => E1 * (INR c * (b2r (Rleb z Zhi) - b2r (Rleb z Zlo)))) zs); [apply Rmult_le_compat_l; [lra|]; apply sumf_abs; intros; apply Row|].
    rewrite (sumf_ext _ (fun z => E1 * INR c * (b2r (Rleb z Zhi) * 1) + - (E1 * INR c) * (b2r (Rleb z Zlo) * 1))) by (intros; ring).
    rewrite sumf_plus, !sumf_scale, (rows_upto z0 h K Hh (fun _ => 1) Zhi), (rows_upto z0 h K Hh (fun _ => 1) Zlo) by lra.
    assert (Cn : forall k, sumf (fun _ : nat => 1) (seq 0 k) = INR k) by (induction k as [|k IH]; [reflexivity|]; rewrite seq_S, sumf_app, IH, S_INR; cbn; ring). rewrite !Cn.
    pose proof (upto_near z0 h Hh Zhi ltac:(lra)) as N1. pose proof (upto_near z0 h Hh Zlo ltac:(lra)) as N2. unfold node in N1, N2. apply abs_inv in N1, N2.
    replace (h * _) with (E1 * INR c * (h * INR (upto z0 h Zhi) - h * INR (upto z0 h Zlo))) by ring. apply Rmult_le_compat_l; [now apply Rmult_le_pos|]. lra.
  Qed.

  (** *** One edge: a sum over the rows against the integral *)
  Definition slope (a b : R * R) : R := Rabs ((fst b - fst a) / (snd b - snd a)).
  Definition ebound (a b : R * R) : R := (Rabs (snd b - snd a) + h) * (B * (slope a b * (h / 2)) + X * w) + h * ((X + slope a b * (h / 2)) * B).
  Lemma edge_near a b : edge l a b -> Rabs (h * sumf (fun z => sigma z a b * Gi (meet a b z) z) zs - Iedge a b) <= ebound a b.
  Proof.
    intro E. destruct (edge_In l a b E) as [Ia Ib]. destruct (Hz a Ia) as [Za _]. destruct (Hz b Ib) as [Zb _]. destruct (Hx a Ia) as [_ Xa]. destruct (Hx b Ib) as [_ Xb].
    pose proof (B_pos g B HB) as PB. pose proof w_pos as Pw. pose proof X_pos as PX. assert (Ps : 0 <= slope a b) by apply Rabs_pos. assert (Psh : 0 <= slope a b * (h / 2)) by (apply Rmult_le_pos; lra).
    assert (Pwp : 0 <= B * (slope a b * (h / 2)) + X * w) by (assert (0 <= B * (slope a b * (h / 2))) by (now apply Rmult_le_pos); assert (0 <= X * w) by (apply Rmult_le_pos; lra); lra).
    unfold Iedge. destruct (Req_EM_T (snd a) (snd b)) as [Eq|Ne].
    - rewrite (sumf_ext _ (fun _ => 0)) by (intros; unfold sigma; rewrite Eq; ring). rewrite sumf_zero. replace (h * 0 - 0) with 0 by ring. rewrite Rabs_R0. unfold ebound.
      pose proof (Rabs_pos (snd b - snd a)). assert (0 <= (Rabs (snd b - snd a) + h) * (B * (slope a b * (h / 2)) + X * w)) by (apply Rmult_le_pos; lra).
      assert (0 <= h * ((X + slope a b * (h / 2)) * B)) by (apply Rmult_le_pos; [lra|]; apply Rmult_le_pos; lra). lra.
    - set (phi := fun z => Gi (meet a b z) z). assert (Hcp : cont1 phi) by (apply (phi_cont g B HB Hu a b); lra).
      rewrite (sumf_ext _ (fun z => b2r (Rleb z (snd b)) * phi z + -1 * (b2r (Rleb z (snd a)) * phi z))) by (intros; unfold sigma, phi; ring).
      rewrite sumf_plus, sumf_scale, !(rows_upto z0 h K Hh phi) by lra.
      assert (Wp : forall j t, snd a < node z0 h j <= snd b \/ snd b < node z0 h j <= snd a -> Rabs (t - node z0 h j) <= h / 2 -> Rabs (phi t - phi (node z0 h j)) <= B * (slope a b * (h / 2)) + X * w).
      { intros j t Hj Ht. eapply Rle_trans; [apply (phi_mod g B HB Hu a b ltac:(lra) t (node z0 h j) w)|]. { intro y. now apply Hw_z. }
        fold (slope a b). destruct (meet_range l x0 h X M Hx a b _ E Hj) as [_ R2]. apply Rplus_le_compat; [apply Rmult_le_compat_l; [exact PB|]; apply Rmult_le_compat_l; assumption|]. rewrite Rabs_pos_eq by lra. apply Rmult_le_compat_r; lra. }
      assert (Ma : meet a b (snd a) = fst a) by (unfold meet; field; lra). assert (Mb : meet a b (snd b) = fst b) by (unfold meet; field; lra).
      assert (Bp : forall t, Rabs (t - snd a) <= h / 2 \/ Rabs (t - snd b) <= h / 2 -> Rabs (phi t) <= (X + slope a b * (h / 2)) * B).
      { intros t Ht. eapply Rle_trans; [apply Gi_bound|]. apply Rmult_le_compat_r; [exact PB|]. destruct Ht as [Ht|Ht].
        - replace (meet a b t) with (meet a b (snd a) + (meet a b t - meet a b (snd a))) by ring. eapply Rle_trans; [apply Rabs_triang|]. rewrite Ma at 1. rewrite (Rabs_pos_eq (fst a)) by lra. rewrite (meet_lin a b ltac:(lra)), Rabs_mult. fold (slope a b).
          assert (slope a b * Rabs (t - snd a) <= slope a b * (h / 2)) by now apply Rmult_le_compat_l. lra.
        - replace (meet a b t) with (meet a b (snd b) + (meet a b t - meet a b (snd b))) by ring. eapply Rle_trans; [apply Rabs_triang|]. rewrite Mb at 1. rewrite (Rabs_pos_eq (fst b)) by lra. rewrite (meet_lin a b ltac:(lra)), Rabs_mult. fold (slope a b).
          assert (slope a b * Rabs (t - snd b) <= slope a b * (h / 2)) by now apply Rmult_le_compat_l. lra. }
      unfold ebound. destruct (Rle_dec (snd a) (snd b)) as [L|L].
      + rewrite (Rabs_pos_eq (snd b - snd a)) by lra. set (S1 := sumf (fun j => phi (node z0 h j)) (seq 0 (upto z0 h (snd b)))). set (S2 := sumf (fun j => phi (node z0 h j)) (seq 0 (upto z0 h (snd a)))).
        replace (h * (S1 + -1 * S2)) with (h * (S1 - S2)) by ring. apply sum_interval; [exact Hh|lra|exact Hcp|exact Pwp|intros; apply Wp; [now left|assumption]|exact Bp].
      + rewrite (Rabs_left (snd b - snd a)) by lra. replace (- (snd b - snd a)) with (snd a - snd b) by ring. set (S1 := sumf (fun j => phi (node z0 h j)) (seq 0 (upto z0 h (snd b)))). set (S2 := sumf (fun j => phi (node z0 h j)) (seq 0 (upto z0 h (snd a)))).
        replace (RInt phi (snd a) (snd b)) with (- RInt phi (snd b) (snd a)). 2:{ pose proof (RInt_sub phi (snd a) (snd b) (snd a) Hcp) as Q. rewrite RInt_point in Q. change (@zero _) with 0 in Q. lra. }
        replace (h * (S1 + -1 * S2) - - RInt phi (snd b) (snd a)) with (- (h * (S2 - S1) - RInt phi (snd b) (snd a))) by ring. rewrite Rabs_Ropp.
        apply sum_interval; [exact Hh|lra|exact Hcp|exact Pwp|intros; apply Wp; [now right|assumption]|intros t Ht; apply Bp; tauto].
  Qed.

  (** *** Everything *)
  Definition ecoef (a b : R * R) : R := (Rabs (snd b - snd a) + 1) * (B * slope a b + X) + (X + slope a b) * B.
  Definition coef (k : nat) : R := edge_sum ecoef l + ((X + 3) + B) * INR c * (Zhi - Zlo + 1) + INR k * ((INR c + 1) * B).
  Hypothesis Hh1 : h <= 1.
  Lemma ebound_le a b : ebound a b <= (h + w) * ecoef a b.
  Proof.
    pose proof (B_pos g B HB) as PB. pose proof w_pos as Pw. pose proof X_pos as PX. assert (Ps : 0 <= slope a b) by apply Rabs_pos. set (q := slope a b) in *. unfold ebound, ecoef. fold q. set (D := Rabs (snd b - snd a)). assert (PD : 0 <= D) by apply Rabs_pos.
    assert (Pq : 0 <= B * q) by now apply Rmult_le_pos.
    assert (A : (D + h) * (B * (q * (h / 2)) + X * w) <= (D + 1) * ((h + w) * (B * q + X))).
    { apply Rmult_le_compat; [lra| | lra|].
      - assert (0 <= B * (q * (h / 2))) by (apply Rmult_le_pos; [exact PB|apply Rmult_le_pos; lra]). assert (0 <= X * w) by (apply Rmult_le_pos; lra). lra.
      - assert (0 <= (B * q) * (h / 2)) by (apply Rmult_le_pos; lra). assert (0 <= (B * q) * w) by (apply Rmult_le_pos; lra). assert (0 <= X * h) by (apply Rmult_le_pos; lra). lra. }
    assert (C : h * ((X + q * (h / 2)) * B) <= (h + w) * ((X + q) * B)).
    { apply Rmult_le_compat; [lra| |lra|].
      - apply Rmult_le_pos; [|exact PB]. assert (0 <= q * (h / 2)) by (apply Rmult_le_pos; lra). lra.
      - apply Rmult_le_compat_r; [exact PB|]. assert (q * (h / 2) <= q * 1) by (apply Rmult_le_compat_l; lra). lra. }
    lra.
  Qed.
  Lemma csum_bound ex s : (s = 1 \/ s = -1) -> sense ex s l -> Rabs (csum - s * edge_sum Iedge l) <= (h + w) * coef (length ex).
  Proof.
    intros Hs S. pose proof (B_pos g B HB) as PB. pose proof w_pos as Pw. pose proof X_pos as PX. pose proof (pos_INR c) as Pc.
    rewrite (csum_rows s). pose proof (gap_sum2 ex s Hs S) as Gp. set (A := sumf _ zs). set (E := sumf (fun z => edge_sum (fun a b => sigma z a b * err z a b) l) zs). set (Qg := sumf _ (mesh xs zs)) in *.
    replace (s * h * (A + E) + Qg - s * edge_sum Iedge l) with (s * ((h * A - edge_sum Iedge l) + h * E) + Qg) by ring. eapply Rle_trans; [apply Rabs_triang|]. unfold coef at 1. rewrite (Rmult_plus_distr_l (h + w) (_ + _) (INR (length ex) * _)). apply Rplus_le_compat.
    2:{ eapply Rle_trans; [exact Gp|]. set (k := INR (length ex)). assert (0 <= k) by apply pos_INR. assert (0 <= (INR c + 1) * B) by (apply Rmult_le_pos; lra). assert (0 <= k * ((INR c + 1) * B)) by now apply Rmult_le_pos.
        replace (k * ((INR c + 1) * (B * (h * h)))) with (k * ((INR c + 1) * B) * (h * h)) by ring. rewrite (Rmult_comm (h + w)). apply Rmult_le_compat_l; [assumption|]. nra. }
    rewrite Rabs_mult. replace (Rabs s) with 1 by (destruct Hs as [->| ->]; [now rewrite Rabs_R1|rewrite Rabs_left; lra]). rewrite Rmult_1_l.
    eapply Rle_trans; [apply Rabs_triang|]. rewrite (Rmult_plus_distr_l (h + w)). apply Rplus_le_compat.
    - unfold A. rewrite sumf_edges, <- !edge_sum_scale.
      match goal with |- Rabs (edge_sum ?f l - edge_sum ?k l) <= _ => replace (edge_sum f l - edge_sum k l) with (edge_sum (fun a b => f a b + -1 * k a b) l) by (rewrite edge_sum_plus, !edge_sum_scale; ring) end.
      apply edge_sum_abs. intros a b Eab. cbv beta. eapply Rle_trans; [|apply ebound_le]. replace (_ + _) with (h * sumf (fun z => sigma z a b * Gi (meet a b z) z) zs - Iedge a b) by ring. now apply edge_near.
    - unfold E. assert (P1 : 0 <= (X + 3 * h) * w + B * (h / 2)) by (assert (0 <= (X + 3 * h) * w) by (apply Rmult_le_pos; lra); assert (0 <= B * (h / 2)) by (apply Rmult_le_pos; lra); lra).
      eapply Rle_trans; [apply (rows_err err _ P1); intros; now apply err_bound|]. rewrite <- !Rmult_assoc. 
      assert (Q : (X + 3 * h) * w + B * (h / 2) <= (h + w) * (X + 3 + B)).
      { assert ((X + 3 * h) * w <= (X + 3) * w) by (apply Rmult_le_compat_r; lra). assert (0 <= B * w) by (apply Rmult_le_pos; lra). assert (0 <= (X + 3) * h) by (apply Rmult_le_pos; lra). assert (0 <= B * h) by (apply Rmult_le_pos; lra). lra. }
      apply Rmult_le_compat; [now apply Rmult_le_pos|lra| |lra]. apply Rmult_le_compat_r; assumption.
  Qed.
End Sum.
