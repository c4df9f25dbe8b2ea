(** Lemmas for C97: replacing pieces of a polyline by their chords. *)
From Coq Require Import Reals Lra Lia ZArith List Bool.
From Verif Require Import Base Geometry SpecGeometry GeometryProofs Flux SpecFlux FluxProofs.
Import ListNotations.
Open Scope R_scope.

Lemma distance_tri p q r : distance p r <= distance p q + distance q r.
Proof.
  unfold distance. set (a := fst q - fst p). set (b := snd q - snd p). set (c := fst r - fst q). set (d := snd r - snd q).
  replace (fst r - fst p) with (a + c) by (unfold a, c; ring). replace (snd r - snd p) with (b + d) by (unfold b, d; ring).
  pose proof (pow2_ge_0 a). pose proof (pow2_ge_0 b). pose proof (pow2_ge_0 c). pose proof (pow2_ge_0 d).
  set (u := sqrt (a ^ 2 + b ^ 2)). set (v := sqrt (c ^ 2 + d ^ 2)).
  assert (U : u * u = a ^ 2 + b ^ 2) by (apply sqrt_sqrt; lra). assert (V : v * v = c ^ 2 + d ^ 2) by (apply sqrt_sqrt; lra).
  assert (U0 : 0 <= u) by apply sqrt_pos. assert (V0 : 0 <= v) by apply sqrt_pos. clearbody u v.
  assert (K : a * c + b * d <= u * v).
  { apply Rle_trans with (Rabs (a * c + b * d)); [apply Rle_abs|]. rewrite <- (Rabs_pos_eq (u * v)) by now apply Rmult_le_pos. apply Rsqr_le_abs_0. unfold Rsqr.
    replace (u * v * (u * v)) with ((u * u) * (v * v)) by ring. rewrite U, V. pose proof (pow2_ge_0 (a * d - b * c)). nra. }
  rewrite <- (sqrt_square (u + v)) by lra. apply sqrt_le_1_alt.
  replace ((u + v) * (u + v)) with (u * u + v * v + 2 * (u * v)) by ring. rewrite U, V. replace ((a + c) ^ 2 + (b + d) ^ 2) with (a ^ 2 + b ^ 2 + (c ^ 2 + d ^ 2) + 2 * (a * c + b * d)) by ring. lra.
Qed.
Lemma turn_distance p a b : Rabs (turn p a b) <= distance p a * distance a b.
Proof.
  unfold distance. rewrite <- sqrt_mult; [|apply Rplus_le_le_0_compat; apply pow2_ge_0|apply Rplus_le_le_0_compat; apply pow2_ge_0]. rewrite <- sqrt_Rsqr_abs. apply sqrt_le_1_alt. unfold turn, Rsqr.
  set (x := fst a - fst p). set (z := snd a - snd p). set (u := fst b - fst a). set (v := snd b - snd a).
  replace (fst b - fst p) with (x + u) by (unfold x, u; ring). replace (snd b - snd p) with (z + v) by (unfold z, v; ring).
  pose proof (pow2_ge_0 (x * u + z * v)). nra.
Qed.
Lemma distance_self p : distance p p = 0.
Proof. unfold distance. replace ((fst p - fst p) ^ 2 + (snd p - snd p) ^ 2) with 0 by ring. apply sqrt_0. Qed.
Lemma path_cons p q l : path_length (p :: q :: l) = distance p q + path_length (q :: l).
Proof. reflexivity. Qed.

Lemma walk_inv p q l s r : walk (p :: q :: l) s r ->
  (0 <= s < distance p q /\ r = (fst p + s / distance p q * (fst q - fst p), snd p + s / distance p q * (snd q - snd p))) \/
  (distance p q <= s /\ walk (q :: l) (s - distance p q) r).
Proof. intro W. inversion W; subst; [left|right]; auto. Qed.

Section Chord.
  (** An edge function that is additive along straight edges and changes little when a corner is cut, for
      points of a convex set G. *)
  Variable G : R * R -> Prop.
  Variable f : R * R -> R * R -> R.
  Variable K : R.
  Hypothesis K0 : 0 <= K.
  Hypothesis Gseg : forall p q t, G p -> G q -> 0 <= t <= 1 -> G (fst p + t * (fst q - fst p), snd p + t * (snd q - snd p)).
  Hypothesis fself : forall p, f p p = 0.
  Hypothesis fseg : forall p q t, let r := (fst p + t * (fst q - fst p), snd p + t * (snd q - snd p)) in f p q = f p r + f r q.
  Hypothesis fcorner : forall p a b, G p -> G a -> G b -> Rabs (f p a + f a b - f p b) <= K * Rabs (turn p a b).

  Lemma chord_path o l : G o -> (forall a, In a l -> G a) -> forall p s, G p -> distance o p <= s -> 0 <= s ->
    Rabs (f o p + edge_sum f (p :: l) - f o (last l p)) <= K * (((s + path_length (p :: l)) ^ 2 - s ^ 2) / 2).
  Proof.
    intros Go. induction l as [|q l IH]; intros Gl p s Gp Hs Hs0.
    - cbn [edge_sum last path_length]. replace (f o p + 0 - f o p) with 0 by ring. rewrite Rabs_R0. apply Rmult_le_pos; [exact K0|]. lra.
    - rewrite edge_sum_cons, path_cons, last_cons. set (e := distance p q). assert (He : 0 <= e) by apply distance_pos.
      specialize (IH (fun a Ha => Gl a (or_intror Ha)) q (s + e) (Gl q (or_introl eq_refl))).
      pose proof (distance_tri o p q) as T. fold e in T. specialize (IH ltac:(lra) ltac:(lra)).
      pose proof (fcorner o p q Go Gp (Gl q (or_introl eq_refl))) as C. pose proof (turn_distance o p q) as D. fold e in D.
      assert (D' : K * Rabs (turn o p q) <= K * (s * e)). { apply Rmult_le_compat_l; [exact K0|]. eapply Rle_trans; [exact D|]. apply Rmult_le_compat_r; assumption. }
      set (F := edge_sum f (q :: l)) in *. set (pl := path_length (q :: l)) in *. set (fz := f o (last l q)) in *.
      replace (f o p + (f p q + F) - fz) with ((f o p + f p q - f o q) + (f o q + F - fz)) by ring. eapply Rle_trans; [apply Rabs_triang|].
      replace (K * (((s + (e + pl)) ^ 2 - s ^ 2) / 2)) with (K * (s * e) + K * (e ^ 2 / 2) + K * (((s + e + pl) ^ 2 - (s + e) ^ 2) / 2)) by field.
      assert (0 <= K * (e ^ 2 / 2)) by (apply Rmult_le_pos; [exact K0|]; pose proof (pow2_ge_0 e); lra). lra.
  Qed.
  Lemma chord_bound p l : (forall a, In a (p :: l) -> G a) -> Rabs (edge_sum f (p :: l) - f p (last l p)) <= K * (path_length (p :: l) ^ 2 / 2).
  Proof.
    intro Gl. assert (Gp : G p) by (apply Gl; now left). pose proof (chord_path p l Gp (fun a Ha => Gl a (or_intror Ha)) p 0 Gp) as C.
    rewrite distance_self, fself in C. specialize (C (Rle_refl _) (Rle_refl _)). replace (0 + edge_sum f (p :: l) - f p (last l p)) with (edge_sum f (p :: l) - f p (last l p)) in C by ring.
    eapply Rle_trans; [exact C|]. apply Req_le. field.
  Qed.

  (** Cutting a polyline at the point reached after the distance s. *)
  Lemma walk_split l s r : walk l s r -> (forall a, In a l -> G a) -> exists p l1 l2,
    (exists l', l = p :: l') /\ last l1 p = r /\ edge_sum f l = edge_sum f (p :: l1) + edge_sum f (r :: l2) /\
    path_length (p :: l1) = s /\ path_length (r :: l2) = path_length l - s /\ last l2 r = last l p /\
    (forall a, In a (p :: l1) -> G a) /\ (forall a, In a (r :: l2) -> G a) /\
    forall s' r', s <= s' -> walk l s' r' -> walk (r :: l2) (s' - s) r'.
  Proof.
    intro W. induction W as [p|p q l s Hs|p q l s r Hd W IH]; intro Gl.
    - exists p, [], []. split; [now exists []|]. split; [reflexivity|]. split; [cbn [edge_sum]; ring|]. split; [reflexivity|]. split; [cbn [path_length]; ring|]. split; [reflexivity|].
      split; [exact Gl|]. split; [exact Gl|]. intros s' r' _ W'. now rewrite Rminus_0_r.
    - set (d := distance p q) in *. set (r := (fst p + s / d * (fst q - fst p), snd p + s / d * (snd q - snd p))).
      assert (Hd : 0 < d) by lra. assert (T : 0 <= s / d <= 1). { split; [apply Rle_mult_inv_pos; lra|]. apply (Rmult_le_reg_r d); [lra|]. unfold Rdiv. rewrite Rmult_assoc, Rinv_l; lra. }
      assert (Dpr : distance p r = s).
      { unfold distance, r; cbn [fst snd]. replace ((fst p + s / d * (fst q - fst p) - fst p) ^ 2 + (snd p + s / d * (snd q - snd p) - snd p) ^ 2) with ((s / d) ^ 2 * ((fst q - fst p) ^ 2 + (snd q - snd p) ^ 2)) by ring.
        rewrite sqrt_mult; [|apply pow2_ge_0|apply Rplus_le_le_0_compat; apply pow2_ge_0]. rewrite sqrt_pow2 by lra. change (sqrt ((fst q - fst p) ^ 2 + (snd q - snd p) ^ 2)) with d. field. lra. }
      assert (Drq : distance r q = d - s).
      { unfold distance, r; cbn [fst snd]. replace ((fst q - (fst p + s / d * (fst q - fst p))) ^ 2 + (snd q - (snd p + s / d * (snd q - snd p))) ^ 2) with ((1 - s / d) ^ 2 * ((fst q - fst p) ^ 2 + (snd q - snd p) ^ 2)) by ring.
        rewrite sqrt_mult; [|apply pow2_ge_0|apply Rplus_le_le_0_compat; apply pow2_ge_0]. rewrite sqrt_pow2 by lra. change (sqrt ((fst q - fst p) ^ 2 + (snd q - snd p) ^ 2)) with d. field. lra. }
      assert (Gr : G r) by (apply Gseg; [apply Gl; now left|apply Gl; right; now left|exact T]).
      exists p, [r], (q :: l). split; [now exists (q :: l)|]. split; [reflexivity|]. split; [|split; [|split; [|split; [|split; [|split]]]]].
      + rewrite !edge_sum_cons. cbn [edge_sum]. assert (F : f p q = f p r + f r q) by exact (fseg p q (s / d)). lra.
      + rewrite path_cons, Dpr. cbn [path_length]. ring.
      + rewrite !path_cons, Drq. fold d. ring.
      + now rewrite !last_cons.
      + intros a Ha. cbn [In] in Ha. destruct Ha as [E|[E|[]]]; [rewrite <- E; apply Gl; now left|rewrite <- E; exact Gr].
      + intros a [E|Ha]; [rewrite <- E; exact Gr|]. apply Gl. now right.
      + intros s' r' Hs' W'. destruct (walk_inv _ _ _ _ _ W') as [(Hs'' & ->)|(Hd' & W'')].
        * fold d in Hs''. pose proof (walk_here r q l (s' - s)) as H. rewrite Drq in H. specialize (H ltac:(lra)).
          fold d. unfold r in H at 2 3 4 5. cbn [fst snd] in H.
          replace (fst p + s' / d * (fst q - fst p)) with (fst p + s / d * (fst q - fst p) + (s' - s) / (d - s) * (fst q - (fst p + s / d * (fst q - fst p)))) by (field; lra).
          replace (snd p + s' / d * (snd q - snd p)) with (snd p + s / d * (snd q - snd p) + (s' - s) / (d - s) * (snd q - (snd p + s / d * (snd q - snd p)))) by (field; lra).
          exact H.
        * apply walk_on; rewrite Drq; [fold d in Hd'; lra|]. replace (s' - s - (d - s)) with (s' - distance p q) by (fold d; ring). exact W''.
    - destruct (IH (fun a Ha => Gl a (or_intror Ha))) as (q' & l1 & l2 & (l' & El) & L1 & E & P1 & P2 & L2 & G1 & G2 & W2). injection El as <- <-.
      exists p, (q :: l1), l2. split; [now exists (q :: l)|]. split; [now rewrite last_cons|]. split; [|split; [|split; [|split; [|split; [|split]]]]].
      + rewrite !edge_sum_cons, E. ring.
      + rewrite path_cons, P1. ring.
      + rewrite path_cons, P2. ring.
      + rewrite L2, !last_cons. reflexivity.
      + intros a [<-|Ha]; [apply Gl; now left|now apply G1].
      + exact G2.
      + intros s' r' Hs' W'. destruct (walk_inv _ _ _ _ _ W') as [(Hs'' & ->)|(Hd' & W'')]; [lra|].
        replace (s' - s) with (s' - distance p q - (s - distance p q)) by ring. apply W2; [lra|exact W''].
  Qed.

  (** m points at equal distances h along a polyline of length m h, and its last point. *)
  Lemma resample h : 0 <= h -> forall m l p rs, (1 <= m)%nat -> (forall a, In a (p :: l) -> G a) -> path_length (p :: l) = INR m * h -> length rs = m ->
    (forall k, (k < m)%nat -> exists r, nth_error rs k = Some r /\ walk (p :: l) (INR k * h) r) ->
    Rabs (edge_sum f (rs ++ [last l p]) - edge_sum f (p :: l)) <= INR m * (K * (h ^ 2 / 2)).
  Proof.
    intros Hh. induction m as [|m IH]; intros l p rs Hm Gl Pl Lr W; [lia|].
    destruct rs as [|r0 rs]; [discriminate|]. destruct (W 0%nat ltac:(lia)) as (r & E & W0). cbn in E. injection E as <-. cbn [INR] in W0. rewrite Rmult_0_l in W0.
    destruct (walk_0 _ _ W0) as (l' & El). injection El as <- _. destruct m as [|m].
    - destruct rs; [|discriminate]. cbn [app]. rewrite (edge_sum_cons f p (last l p) []). change (edge_sum f [last l p]) with 0. rewrite Rplus_0_r, Rabs_minus_sym. pose proof (chord_bound p l Gl) as C. rewrite Pl in C. cbn [INR] in *. replace (1 * h) with h in C by ring. lra.
    - destruct rs as [|r1 rs]; [discriminate|]. destruct (W 1%nat ltac:(lia)) as (r & E & W1). cbn in E. injection E as <-. cbn [INR] in W1. rewrite Rmult_1_l in W1.
      destruct (walk_split _ _ _ W1 Gl) as (q & l1 & l2 & (l'' & El) & L1 & ES & P1 & P2 & L2 & G1 & G2 & W2). injection El as <- _.
      specialize (IH l2 r1 (r1 :: rs) ltac:(lia) G2). rewrite L2, last_cons in IH.
      assert (A1 : path_length (r1 :: l2) = INR (S m) * h) by (rewrite P2, Pl, (S_INR (S m)); ring).
      assert (A2 : length (r1 :: rs) = S m) by (cbn in *; lia). specialize (IH A1 A2).
      assert (A3 : forall k, (k < S m)%nat -> exists r, nth_error (r1 :: rs) k = Some r /\ walk (r1 :: l2) (INR k * h) r).
      { intros k Hk. destruct (W (S k) ltac:(lia)) as (r & Er & Wr). exists r. split; [exact Er|]. replace (INR k * h) with (INR (S k) * h - h) by (rewrite S_INR; ring).
        apply W2; [|exact Wr]. rewrite S_INR. pose proof (pos_INR k). nra. }
      specialize (IH A3). pose proof (chord_bound p l1 G1) as C. rewrite L1, P1, Rabs_minus_sym in C.
      change ((p :: r1 :: rs) ++ [last l p]) with (p :: (r1 :: rs ++ [last l p])). rewrite edge_sum_cons. change (r1 :: rs ++ [last l p]) with ((r1 :: rs) ++ [last l p]).
      rewrite ES. set (Z := edge_sum f ((r1 :: rs) ++ [last l p])) in *. set (Y := edge_sum f (r1 :: l2)) in *. set (X := edge_sum f (p :: l1)) in *.
      replace (f p r1 + Z - (X + Y)) with ((f p r1 - X) + (Z - Y)) by ring. eapply Rle_trans; [apply Rabs_triang|]. rewrite (S_INR (S m)). lra.
  Qed.
End Chord.

Definition x2dz (p q : R * R) : R := (fst p * fst p + fst p * fst q + fst q * fst q) * (snd q - snd p).
Lemma crs_resample h m l p rs : 0 <= h -> (1 <= m)%nat -> path_length (p :: l) = INR m * h -> length rs = m ->
  (forall k, (k < m)%nat -> exists r, nth_error rs k = Some r /\ walk (p :: l) (INR k * h) r) ->
  Rabs (edge_sum crs (rs ++ [last l p]) - edge_sum crs (p :: l)) <= INR m * (1 * (h ^ 2 / 2)).
Proof.
  intros Hh Hm P L W. apply (resample (fun _ => True) crs 1); auto; try lra.
  - intro. unfold crs. ring.
  - intros. unfold crs, r; cbn [fst snd]. ring.
  - intros. rewrite Rmult_1_l. apply Req_le. f_equal. unfold crs, turn. ring.
Qed.
Lemma x2dz_resample X h m l p rs : 0 <= h -> (1 <= m)%nat -> (forall a, In a (p :: l) -> Rabs (fst a) <= X) -> path_length (p :: l) = INR m * h -> length rs = m ->
  (forall k, (k < m)%nat -> exists r, nth_error rs k = Some r /\ walk (p :: l) (INR k * h) r) ->
  Rabs (edge_sum x2dz (rs ++ [last l p]) - edge_sum x2dz (p :: l)) <= INR m * (3 * X * (h ^ 2 / 2)).
Proof.
  intros Hh Hm GX P L W. assert (X0 : 0 <= X) by (pose proof (GX p (or_introl eq_refl)); pose proof (Rabs_pos (fst p)); lra).
  apply (resample (fun a => Rabs (fst a) <= X) x2dz (3 * X)); auto; try lra.
  - intros a b t Ha Hb Ht. cbn [fst]. 
    replace (fst a + t * (fst b - fst a)) with ((1 - t) * fst a + t * fst b) by ring. eapply Rle_trans; [apply Rabs_triang|]. rewrite !Rabs_mult, (Rabs_pos_eq t), (Rabs_pos_eq (1 - t)) by lra.
    apply Rle_trans with ((1 - t) * X + t * X); [|lra]. apply Rplus_le_compat; apply Rmult_le_compat_l; lra.
  - intro. unfold x2dz. ring.
  - intros. unfold x2dz, r; cbn [fst snd]. ring.
  - intros o a b Ho Ha Hb. replace (x2dz o a + x2dz a b - x2dz o b) with ((fst o + fst a + fst b) * turn o a b) by (unfold x2dz, turn; ring).
    rewrite Rabs_mult. apply Rmult_le_compat_r; [apply Rabs_pos|]. eapply Rle_trans; [apply Rabs_triang|]. pose proof (Rabs_triang (fst o) (fst a)). lra.
Qed.
