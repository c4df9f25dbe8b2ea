From Coquelicot Require Import Coquelicot.
From Verif Require Import Base Geometry SpecGeometry.
Open Scope R_scope.

(** ** Edge sums *)
Lemma edge_sum_cons f p q l : edge_sum f (p :: q :: l) = f p q + edge_sum f (q :: l).
Proof. reflexivity. Qed.
Lemma edge_sum_ext f g l : (forall p q, f p q = g p q) -> edge_sum f l = edge_sum g l.
Proof. intro H. induction l as [|p [|q l] IH]; [reflexivity..|]. rewrite !edge_sum_cons, H, IH. reflexivity. Qed.
Lemma edge_sum_plus f g l : edge_sum (fun p q => f p q + g p q) l = edge_sum f l + edge_sum g l.
Proof. induction l as [|p [|q l] IH]; [cbn; ring..|]. rewrite !edge_sum_cons, IH. ring. Qed.
Lemma edge_sum_scale c f l : edge_sum (fun p q => c * f p q) l = c * edge_sum f l.
Proof. induction l as [|p [|q l] IH]; [cbn; ring..|]. rewrite !edge_sum_cons, IH. ring. Qed.
Lemma edge_sum_tele g p l : edge_sum (fun p q => g q - g p) (p :: l) = g (last l p) - g p.
Proof.
  revert p. induction l as [|q l IH]; intro p; [cbn; ring|]. rewrite edge_sum_cons, IH.
  destruct l as [|q' l]; [cbn; ring|]. change (last (q :: q' :: l) p) with (last (q' :: l) p).
  assert (E : forall d d', last (q' :: l) d = last (q' :: l) d').
  { clear. revert q'. induction l as [|x l IH]; intros q' d d'; [reflexivity|]. change (last (x :: l) d = last (x :: l) d'). apply IH. }
  rewrite (E q p). ring.
Qed.
Lemma edge_sum_map h f l : edge_sum f (map h l) = edge_sum (fun p q => f (h p) (h q)) l.
Proof. induction l as [|p [|q l] IH]; [reflexivity..|]. cbn [map] in *. rewrite !edge_sum_cons, IH. reflexivity. Qed.
Lemma edge_sum_snoc f p l q : edge_sum f (p :: l ++ [q]) = edge_sum f (p :: l) + f (last l p) q.
Proof.
  revert p. induction l as [|x l IH]; intro p; [cbn; ring|]. cbn [app]. rewrite !edge_sum_cons, IH.
  replace (last (x :: l) p) with (last l x); [ring|].
  clear. revert x p. induction l as [|y l IH]; intros x p; [reflexivity|].
  change (last (x :: y :: l) p) with (last (y :: l) p). rewrite <- (IH y p). now rewrite <- (IH y x).
Qed.
Lemma last_cons {A} (x : A) l d : last (x :: l) d = last l x.
Proof. revert x d. induction l as [|y l IH]; intros x d; [reflexivity|]. change (last (x :: y :: l) d) with (last (y :: l) d). now rewrite !IH. Qed.
Lemma edge_sum_rev f l : edge_sum f (rev l) = edge_sum (fun p q => f q p) l.
Proof.
  induction l as [|p l IH]; [reflexivity|]. cbn [rev]. destruct l as [|q l]; [reflexivity|].
  rewrite edge_sum_cons, <- IH. cbn [rev]. destruct (rev l ++ [q]) as [|r m] eqn:E; [now destruct (rev l)|].
  cbn [app]. rewrite edge_sum_snoc.
  assert (L : last m r = q). { rewrite <- (last_cons r m q), <- E. apply last_last. } rewrite L. ring.
Qed.
Lemma edge_sum_edges f l : (forall p q, edge l p q -> 0 <= f p q) -> 0 <= edge_sum f l.
Proof.
  induction l as [|p [|q l] IH]; intro H; [apply Rle_refl..|]. rewrite edge_sum_cons.
  assert (0 <= f p q) by (apply H; now exists [], l).
  assert (0 <= edge_sum f (q :: l)). { apply IH. intros a b (l1 & l2 & E). apply H. exists (p :: l1), l2. cbn. now rewrite E. }
  lra.
Qed.
Lemma edge_sum_ext_edges f g l : (forall p q, edge l p q -> f p q = g p q) -> edge_sum f l = edge_sum g l.
Proof.
  induction l as [|p [|q l] IH]; intro H; [reflexivity..|]. rewrite !edge_sum_cons.
  rewrite (H p q) by (now exists [], l). f_equal. apply IH.
  intros a b (l1 & l2 & E). apply H. exists (p :: l1), l2. cbn. now rewrite E.
Qed.
Lemma edge_sum_nonneg_zero f l : (forall p q, edge l p q -> 0 <= f p q) -> edge_sum f l = 0 -> forall p q, edge l p q -> f p q = 0.
Proof.
  induction l as [|p [|q l] IH]; intros H Z a b (l1 & l2 & E).
  - destruct l1; discriminate.
  - destruct l1 as [|x [|y l1]]; discriminate.
  - rewrite edge_sum_cons in Z.
    assert (0 <= f p q) by (apply H; now exists [], l).
    assert (HH : forall a b, edge (q :: l) a b -> 0 <= f a b).
    { intros a' b' (m1 & m2 & E'). apply H. exists (p :: m1), m2. cbn. now rewrite E'. }
    pose proof (edge_sum_edges f _ HH).
    destruct l1 as [|x l1]; cbn in E.
    + injection E as -> -> _. lra.
    + injection E as <- E. apply IH; [exact HH|lra|now exists l1, l2].
Qed.
Lemma loop_telescope f f' g l : loop l -> (forall p q, f p q = f' p q + (g q - g p)) -> edge_sum f l = edge_sum f' l.
Proof.
  intros (p & r & -> & L) H. rewrite (edge_sum_ext _ _ _ H), edge_sum_plus, edge_sum_tele, L. ring.
Qed.
Lemma loop_rev l : loop l -> loop (rev l).
Proof.
  intros (p & r & -> & L).   destruct (exists_last (l := p :: r)) as (r' & q & E); [discriminate|].
  assert (q = p). { rewrite <- (last_last r' q p), <- E, last_cons. exact L. }
  subst q. rewrite E, rev_app_distr. cbn [rev app]. exists p, (rev r'). split; [reflexivity|].
  destruct r' as [|x r']; [reflexivity|]. cbn in E. injection E as <- _. cbn [rev]. apply last_last.
Qed.

(** ** Area *)
Definition crs (p q : R * R) : R := fst p * snd q - fst q * snd p.
Definition ccw_edge (p q : R * R) : R := (fst q - fst p) * (snd q + snd p).

Lemma dot_cons a b l m : dot (a :: l) (b :: m) = a * b + dot l m.
Proof. unfold dot. cbn [map2]. now rewrite pysum_cons. Qed.
Lemma dot_roll d p r :
  dot (map fst (p :: r)) (snd d :: removelast (map snd (p :: r))) - dot (map snd (p :: r)) (fst d :: removelast (map fst (p :: r)))
  = - edge_sum crs (d :: p :: r).
Proof.
  revert d p. induction r as [|q r IH]; intros d p.
  - cbn [map removelast]. rewrite !dot_cons. unfold dot. cbn [map2 edge_sum]. rewrite pysum_nil. unfold crs. ring.
  - specialize (IH p q). cbn [map] in IH |- *. 
    change (removelast (snd p :: snd q :: map snd r)) with (snd p :: removelast (snd q :: map snd r)).
    change (removelast (fst p :: fst q :: map fst r)) with (fst p :: removelast (fst q :: map fst r)).
    rewrite (dot_cons (fst p) (snd d)), (dot_cons (snd p) (fst d)), edge_sum_cons. unfold crs at 1. lra.
Qed.
Lemma last_map {A B} (f : A -> B) l d : last (map f l) (f d) = f (last l d).
Proof. induction l as [|x [|y l] IH]; [reflexivity..|]. exact IH. Qed.
Lemma area_cyclic p r : get_area_2d (p :: r) = Ok (Rabs (edge_sum crs (last r p :: p :: r)) / 2).
Proof.
  unfold get_area_2d. cbv zeta. f_equal.
  assert (Hz : roll (map snd (p :: r)) = snd (last r p) :: removelast (map snd (p :: r))).
  { unfold roll. cbn [map]. rewrite last_cons, last_map. reflexivity. }
  assert (Hx : roll (map fst (p :: r)) = fst (last r p) :: removelast (map fst (p :: r))).
  { unfold roll. cbn [map]. rewrite last_cons, last_map. reflexivity. }
  rewrite Hz, Hx, dot_roll, Rabs_Ropp. lra.
Qed.
Lemma area_loop l : loop l -> get_area_2d l = Ok (Rabs (edge_sum crs l) / 2).
Proof.
  intros (p & r & -> & L). rewrite area_cyclic, L, edge_sum_cons. unfold crs at 1. do 3 f_equal. ring.
Qed.
Lemma ccw_sum l : loop l -> edge_sum ccw_edge l = - edge_sum crs l.
Proof.
  intro H. rewrite <- (Ropp_involutive (edge_sum ccw_edge l)). f_equal.
  replace (- edge_sum ccw_edge l) with ((-1) * edge_sum ccw_edge l) by ring. rewrite <- edge_sum_scale.
  apply (loop_telescope _ _ (fun p => - (fst p * snd p)) l H). intros p q. unfold ccw_edge, crs. ring.
Qed.
Lemma check_ccw_loop l : loop l -> check_ccw l = Rltb 0 (edge_sum crs l).
Proof.
  intro H. unfold check_ccw. change (fun p q : R * R => (fst q - fst p) * (snd q + snd p)) with ccw_edge.
  rewrite (ccw_sum l H). destruct (Rltb_spec (- edge_sum crs l) 0), (Rltb_spec 0 (edge_sum crs l)); try reflexivity; lra.
Qed.
Lemma crs_rev l : edge_sum crs (rev l) = - edge_sum crs l.
Proof.
  rewrite edge_sum_rev. replace (- edge_sum crs l) with ((-1) * edge_sum crs l) by ring.
  rewrite <- edge_sum_scale. apply edge_sum_ext. intros. unfold crs. ring.
Qed.

(** ** Centroid *)
Definition mom (g : R * R -> R) (p q : R * R) : R := (g p + g q) * crs p q.
Lemma mom_rev g l : edge_sum (mom g) (rev l) = - edge_sum (mom g) l.
Proof.
  rewrite edge_sum_rev. replace (- edge_sum (mom g) l) with ((-1) * edge_sum (mom g) l) by ring.
  rewrite <- edge_sum_scale. apply edge_sum_ext. intros. unfold mom, crs. ring.
Qed.
Lemma centroid_loop l : loop l -> edge_sum crs l <> 0 ->
  get_centroid_2d l = Ok (edge_sum (mom fst) l / (3 * edge_sum crs l), edge_sum (mom snd) l / (3 * edge_sum crs l)).
Proof.
  intros H N. unfold get_centroid_2d. rewrite (check_ccw_loop l H).
  change (fun p q : R * R => (fst p + fst q) * (fst p * snd q - fst q * snd p)) with (mom fst).
  change (fun p q : R * R => (snd p + snd q) * (fst p * snd q - fst q * snd p)) with (mom snd).
  destruct (Rltb_spec 0 (edge_sum crs l)) as [P|P].
  - rewrite (area_loop l H). cbn [bind]. rewrite Rabs_right by lra.
    destruct (Reqb_spec (edge_sum crs l / 2) 0); [lra|]. f_equal. f_equal; field; lra.
  - rewrite (area_loop _ (loop_rev l H)). cbn [bind]. rewrite crs_rev, !mom_rev, Rabs_Ropp, Rabs_left by lra.
    destruct (Reqb_spec (- edge_sum crs l / 2) 0); [lra|]. f_equal. f_equal; field; lra.
Qed.
Lemma loop_map h l : loop l -> loop (map h l).
Proof. intros (p & r & -> & L). exists (h p), (map h r). split; [reflexivity|]. now rewrite last_map, L. Qed.

Lemma crs_affine a b c d e f l : loop l -> edge_sum crs (map (affine a b c d e f) l) = (a * d - b * c) * edge_sum crs l.
Proof.
  intro H. rewrite edge_sum_map, <- edge_sum_scale.
  apply (loop_telescope _ _ (fun p => e * (c * fst p + d * snd p) - f * (a * fst p + b * snd p)) l H).
  intros p q. unfold crs, affine; cbn [fst snd]. ring.
Qed.
Lemma x_dz l : loop l -> edge_sum (fun p q => (fst p + fst q) * (snd q - snd p)) l = edge_sum crs l.
Proof. intro H. apply (loop_telescope _ _ (fun p => fst p * snd p) l H). intros. unfold crs. ring. Qed.
Lemma z_dx l : loop l -> edge_sum (fun p q => (snd p + snd q) * (fst q - fst p)) l = - edge_sum crs l.
Proof.
  intro H. rewrite <- (ccw_sum l H). apply edge_sum_ext. intros. unfold ccw_edge. ring.
Qed.
Lemma mom_affine_x a b c d e f l : loop l ->
  edge_sum (mom fst) (map (affine a b c d e f) l)
  = (a * d - b * c) * (a * edge_sum (mom fst) l + b * edge_sum (mom snd) l + 3 * e * edge_sum crs l).
Proof.
  intro H. rewrite edge_sum_map.
  transitivity (edge_sum (fun p q => (a * d - b * c) * (a * mom fst p q + b * mom snd p q + (2 * e * crs p q +
      e * ((fst p + fst q) * (snd q - snd p))))) l).
  - apply (loop_telescope _ _ (fun p => 2 * e * (e * (c * fst p + d * snd p) - f * (a * fst p + b * snd p))
      + e * (a * c * (fst p * fst p) + b * d * (snd p * snd p) + 2 * b * c * (fst p * snd p)) - f * (a * fst p + b * snd p) * (a * fst p + b * snd p)) l H).
    intros p q. unfold mom, crs, affine; cbn [fst snd]. ring.
  - rewrite edge_sum_scale, !edge_sum_plus, !edge_sum_scale, (x_dz l H). ring.
Qed.
Lemma mom_affine_z a b c d e f l : loop l ->
  edge_sum (mom snd) (map (affine a b c d e f) l)
  = (a * d - b * c) * (c * edge_sum (mom fst) l + d * edge_sum (mom snd) l + 3 * f * edge_sum crs l).
Proof.
  intro H. rewrite edge_sum_map.
  transitivity (edge_sum (fun p q => (a * d - b * c) * (c * mom fst p q + d * mom snd p q + (2 * f * crs p q +
      f * ((fst p + fst q) * (snd q - snd p))))) l).
  - apply (loop_telescope _ _ (fun p => 2 * f * (e * (c * fst p + d * snd p) - f * (a * fst p + b * snd p))
      - f * (a * c * (fst p * fst p) + b * d * (snd p * snd p) + 2 * a * d * (fst p * snd p)) + e * (c * fst p + d * snd p) * (c * fst p + d * snd p)) l H).
    intros p q. unfold mom, crs, affine; cbn [fst snd]. ring.
  - rewrite edge_sum_scale, !edge_sum_plus, !edge_sum_scale, (x_dz l H). ring.
Qed.

(** ** Star-shaped polygons *)
Lemma turn_sum l o : loop l -> edge_sum (turn o) l = edge_sum crs l.
Proof.
  intro H. apply (loop_telescope _ _ (fun p => fst p * snd o - fst o * snd p) l H). intros. unfold turn, crs. ring.
Qed.
(** centroid as weighted mean of triangle centroids, for a linear functional *)
Lemma mom_turn l o g a b : (forall p, g p = a * fst p + b * snd p) -> loop l ->
  edge_sum (mom g) l = edge_sum (fun p q => (g o + g p + g q) * turn o p q) l.
Proof.
  intros Hg H.
  assert (E1 : edge_sum (mom g) l = a * edge_sum (mom fst) l + b * edge_sum (mom snd) l).
  { rewrite <- !edge_sum_scale, <- edge_sum_plus. apply edge_sum_ext. intros p q. unfold mom. rewrite !Hg. ring. }
  (* translate by -o *)
  pose proof (mom_affine_x 1 0 0 1 (- fst o) (- snd o) l H) as X.
  pose proof (mom_affine_z 1 0 0 1 (- fst o) (- snd o) l H) as Z.
  assert (E2 : edge_sum (fun p q => (g o + g p + g q) * turn o p q) l
    = a * edge_sum (mom fst) (map (affine 1 0 0 1 (- fst o) (- snd o)) l) + b * edge_sum (mom snd) (map (affine 1 0 0 1 (- fst o) (- snd o)) l)
      + 3 * g o * edge_sum (turn o) l).
  { rewrite !edge_sum_map, <- !edge_sum_scale, <- !edge_sum_plus. apply edge_sum_ext. intros p q.
    unfold mom, crs, affine, turn; cbn [fst snd]. rewrite !Hg. ring. }
  rewrite E2, X, Z, (turn_sum l o H), E1, Hg. ring.
Qed.
(** if all vertices are in a half-plane, so is a star centre (unless the area vanishes) *)
Lemma slope_tele (u v : R * R -> R) l : loop l -> (forall p, In p l -> 0 < u p) ->
  (forall p q, edge l p q -> 0 <= u p * v q - u q * v p) -> forall p q, edge l p q -> u p * v q - u q * v p = 0.
Proof.
  intros H Hu Ht.
  assert (In_edge : forall p q, edge l p q -> 0 < u p /\ 0 < u q).
  { intros p q (l1 & l2 & E). split; apply Hu; rewrite E; apply in_or_app; right; cbn; auto. }
  assert (Z : forall p q, edge l p q -> v q / u q - v p / u p = 0).
  { apply edge_sum_nonneg_zero.
    - intros p q E. destruct (In_edge p q E) as [P Q]. specialize (Ht p q E).
      replace (v q / u q - v p / u p) with ((u p * v q - u q * v p) * / (u p * u q)) by (field; lra).
      apply Rmult_le_pos; [exact Ht|]. left. apply Rinv_0_lt_compat. now apply Rmult_lt_0_compat.
    - destruct H as (p & r & -> & L). rewrite (edge_sum_tele (fun p => v p / u p)), L. ring. }
  intros p q E. destruct (In_edge p q E) as [P Q]. specialize (Z p q E).
  replace (u p * v q - u q * v p) with ((v q / u q - v p / u p) * (u p * u q)) by (field; lra). rewrite Z. ring.
Qed.
Lemma edge_In l p q : edge l p q -> In p l /\ In q l.
Proof. intros (l1 & l2 & ->). split; apply in_or_app; right; cbn; auto. Qed.
Lemma star_center_halfplane l o a b m : loop l -> star_shaped l o -> edge_sum crs l <> 0 ->
  (forall p, In p l -> m <= a * fst p + b * snd p) -> m <= a * fst o + b * snd o.
Proof.
  intros H S N Hm. destruct (Rle_or_lt m (a * fst o + b * snd o)) as [|L]; [assumption|]. exfalso. apply N.
  rewrite <- (turn_sum l o H).
  set (u := fun p : R * R => a * (fst p - fst o) + b * (snd p - snd o)).
  assert (Hu : forall p, In p l -> 0 < u p) by (intros p Hp; specialize (Hm p Hp); unfold u; lra).
  assert (D : 0 < a * a + b * b).
  { destruct H as (p & r & -> & _). specialize (Hu p (or_introl eq_refl)). unfold u in Hu.
    destruct (Req_dec a 0) as [->|Za]; [|nra]. destruct (Req_dec b 0) as [->|Zb]; [lra|nra]. }
  assert (Z : forall p q, edge l p q -> turn o p q = 0).
  { destruct S as [S|S].
    - set (v := fun p : R * R => a * (snd p - snd o) - b * (fst p - fst o)).
      assert (Q : forall p q, u p * v q - u q * v p = (a * a + b * b) * turn o p q) by (intros; unfold u, v, turn; ring).
      intros p q E. pose proof (slope_tele u v l H Hu) as T.
      assert (A : forall p q, edge l p q -> 0 <= u p * v q - u q * v p).
      { intros p' q' E'. rewrite Q. apply Rmult_le_pos; [lra|now apply S]. }
      specialize (T A p q E). rewrite Q in T. nra.
    - set (v := fun p : R * R => b * (fst p - fst o) - a * (snd p - snd o)).
      assert (Q : forall p q, u p * v q - u q * v p = - ((a * a + b * b) * turn o p q)) by (intros; unfold u, v, turn; ring).
      intros p q E. pose proof (slope_tele u v l H Hu) as T.
      assert (A : forall p q, edge l p q -> 0 <= u p * v q - u q * v p).
      { intros p' q' E'. rewrite Q. specialize (S p' q' E'). nra. }
      specialize (T A p q E). rewrite Q in T. nra. }
  rewrite (edge_sum_ext_edges _ (fun _ _ => 0) l Z). clear. induction l as [|p [|q l] IH]; [reflexivity..|].
  rewrite edge_sum_cons, IH. ring.
Qed.
Lemma centroid_halfplane l o c a b m : loop l -> star_shaped l o -> edge_sum crs l <> 0 -> get_centroid_2d l = Ok c ->
  (forall p, In p l -> m <= a * fst p + b * snd p) -> m <= a * fst c + b * snd c.
Proof.
  intros H S N E Hm. pose proof (star_center_halfplane l o a b m H S N Hm) as Ho.
  rewrite (centroid_loop l H N) in E. injection E as <-. cbn [fst snd].
  set (g := fun p : R * R => a * fst p + b * snd p).
  assert (E : a * (edge_sum (mom fst) l / (3 * edge_sum crs l)) + b * (edge_sum (mom snd) l / (3 * edge_sum crs l))
    = edge_sum (mom g) l / (3 * edge_sum crs l)).
  { replace (edge_sum (mom g) l) with (a * edge_sum (mom fst) l + b * edge_sum (mom snd) l); [field; exact N|].
    rewrite <- !edge_sum_scale, <- edge_sum_plus. apply edge_sum_ext. intros. unfold mom, g. ring. }
  rewrite E, (mom_turn l o g a b (fun p => eq_refl) H).
  assert (K : edge_sum (fun p q => (g o + g p + g q) * turn o p q) l - 3 * m * edge_sum crs l
    = edge_sum (fun p q => (g o + g p + g q - 3 * m) * turn o p q) l).
  { rewrite <- (turn_sum l o H). replace (edge_sum (fun p q => (g o + g p + g q) * turn o p q) l - 3 * m * edge_sum (turn o) l)
      with (edge_sum (fun p q => (g o + g p + g q) * turn o p q) l + (- (3 * m)) * edge_sum (turn o) l) by ring.
    rewrite <- edge_sum_scale, <- edge_sum_plus. apply edge_sum_ext. intros; ring. }
  assert (G : forall p, In p l -> m <= g p) by exact Hm. change (m <= g o) in Ho.
  set (M := edge_sum (fun p q => (g o + g p + g q) * turn o p q) l) in *.
  rewrite <- (turn_sum l o H) in *.
  destruct S as [S|S].
  - assert (0 <= edge_sum (turn o) l) by now apply edge_sum_edges.
    assert (0 <= edge_sum (fun p q => (g o + g p + g q - 3 * m) * turn o p q) l).
    { apply edge_sum_edges. intros p q E'. destruct (edge_In l p q E'). apply Rmult_le_pos; [|now apply S].
      pose proof (G p ltac:(assumption)). pose proof (G q ltac:(assumption)). lra. }
    apply (Rmult_le_reg_r (3 * edge_sum (turn o) l)); [lra|].
    replace (M / (3 * edge_sum (turn o) l) * (3 * edge_sum (turn o) l)) with M by (field; exact N). lra.
  - assert (0 <= edge_sum (fun p q => (-1) * turn o p q) l).
    { apply edge_sum_edges. intros p q E'. specialize (S p q E'). lra. }
    rewrite edge_sum_scale in *.
    assert (0 <= edge_sum (fun p q => (-1) * ((g o + g p + g q - 3 * m) * turn o p q)) l).
    { apply edge_sum_edges. intros p q E'. destruct (edge_In l p q E'). specialize (S p q E').
      pose proof (G p ltac:(assumption)). pose proof (G q ltac:(assumption)). nra. }
    rewrite edge_sum_scale in *.
    apply (Rmult_le_reg_r (3 * - edge_sum (turn o) l)); [lra|].
    replace (M / (3 * edge_sum (turn o) l) * (3 * - edge_sum (turn o) l)) with (- M) by (field; exact N). lra.
Qed.

(** ** Boundary integrals *)
Lemma edge_integral_x p q : edge_integral (fun x _ => x) p q ((fst p + fst q) * (snd q - snd p) / 2).
Proof.
  unfold edge_integral.
  set (F := fun t => (fst p * t + t * t / 2 * (fst q - fst p)) * (snd q - snd p)).
  replace ((fst p + fst q) * (snd q - snd p) / 2) with (minus (F 1) (F 0)) by (unfold F, minus, plus, opp; cbn; field).
  refine (@is_RInt_derive R_CompleteNormedModule F _ 0 1 _ _).
  - intros t _. unfold F. auto_derive; [trivial|field].
  - intros t _. apply continuity_pt_filterlim. reg.
Qed.
Lemma edge_integral_x2 p q : edge_integral (fun x _ => x * x) p q
  ((fst p * fst p + fst p * fst q + fst q * fst q) * (snd q - snd p) / 3).
Proof.
  unfold edge_integral.
  set (dx := fst q - fst p).
  set (F := fun t => (fst p * fst p * t + t * t * fst p * dx + t * t * t / 3 * dx * dx) * (snd q - snd p)).
  replace ((fst p * fst p + fst p * fst q + fst q * fst q) * (snd q - snd p) / 3) with (minus (F 1) (F 0))
    by (unfold F, dx, minus, plus, opp; cbn; field).
  refine (@is_RInt_derive R_CompleteNormedModule F _ 0 1 _ _).
  - intros t _. unfold F. auto_derive; [trivial|field].
  - intros t _. apply continuity_pt_filterlim. reg.
Qed.
Lemma path_integral_sum F f l v : (forall p q, edge_integral F p q (f p q)) -> path_integral F l v -> v = edge_sum f l.
Proof.
  intros H P. induction P as [p|p q l v w E _ IH]; [reflexivity|]. rewrite edge_sum_cons, <- IH. f_equal.
  unfold edge_integral in *. specialize (H p q).
  apply (is_RInt_unique (V := R_CompleteNormedModule)) in E, H. congruence.
Qed.
Lemma path_integral_ex F f p l : (forall p q, edge_integral F p q (f p q)) -> path_integral F (p :: l) (edge_sum f (p :: l)).
Proof.
  intro H. revert p. induction l as [|q l IH]; intro p; [constructor|]. rewrite edge_sum_cons. constructor; auto.
Qed.
Lemma x2_dz l : loop l -> edge_sum (fun p q => (fst p * fst p + fst p * fst q + fst q * fst q) * (snd q - snd p)) l = edge_sum (mom fst) l.
Proof.
  intro H. apply (loop_telescope _ _ (fun p => fst p * fst p * snd p) l H). intros. unfold mom, crs. ring.
Qed.
Lemma volume_loop l : loop l -> volume (SClosed l) = Ok (PI / 3 * (if Rltb 0 (edge_sum crs l) then edge_sum (mom fst) l
    else if Rltb (edge_sum crs l) 0 then - edge_sum (mom fst) l else 0)).
Proof.
  intro H. unfold volume, area, center_of_mass. rewrite (area_loop l H). cbn [bind].
  destruct (Req_dec (edge_sum crs l) 0) as [Z|N].
  - rewrite Z. destruct (Rltb_spec 0 0); [lra|]. unfold get_centroid_2d. rewrite (check_ccw_loop l H), Z.
    destruct (Rltb_spec 0 0); [lra|]. rewrite (area_loop _ (loop_rev l H)). cbn [bind]. f_equal. rewrite Rabs_R0. lra.
  - rewrite (centroid_loop l H N). cbn [bind fst]. f_equal.
    destruct (Rltb_spec 0 (edge_sum crs l)).
    + rewrite Rabs_right by lra. field. lra.
    + destruct (Rltb_spec (edge_sum crs l) 0); [|lra]. rewrite Rabs_left by lra. field. lra.
Qed.
