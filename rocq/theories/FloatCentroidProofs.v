(** Lemmas for C102: areas and centres of polygons. *)
From Coq Require Import ZArith Bool Reals Lra Lia List Permutation.
From Flocq Require Import Core.Core IEEE754.BinarySingleNaN.
From Verif Require Import Base FloatComp FloatCompProofs FloatCompAcc FloatSource SpecFloatSource FloatSourceProofs FloatSpace SpecFloatSpace FloatSpaceProofs PiProofs P_FloatSource P_FloatSpace.
From Verif Require Import FloatProfileProofs Geometry SpecGeometry GeometryProofs FloatGeometry SpecFloatGeometry FloatGeometryProofs.
Open Scope R_scope.
Local Notation bp := (bpow radix2).

(** ** Sums around the polygon *)
Definition o2 : R * R := (0, 0).
Definition cyc (f : R * R -> R * R -> R) (L : list (R * R)) : R := edge_sum f L + f (last L o2) (hd o2 L).
Lemma last_rev (L : list (R * R)) : L <> [] -> last (rev L) o2 = hd o2 L.
Proof. destruct L as [|p L]; [easy|]. intros _. cbn [rev hd]. apply last_last. Qed.
Lemma hd_rev (L : list (R * R)) : L <> [] -> hd o2 (rev L) = last L o2.
Proof. intro N. rewrite <- (rev_involutive L) at 2. rewrite last_rev; [reflexivity|]. intro E. apply N. rewrite <- (rev_involutive L), E. reflexivity. Qed.
Lemma cyc_rev f L : L <> [] -> cyc f (rev L) = cyc (fun p q => f q p) L.
Proof. intro N. unfold cyc. rewrite edge_sum_rev, last_rev, hd_rev by exact N. reflexivity. Qed.
Lemma cyc_opp f g L : (forall p q, f p q = - g p q) -> cyc f L = - cyc g L.
Proof.
  intro H. unfold cyc. rewrite H. rewrite (edge_sum_ext f (fun p q => (-1) * g p q)) by (intros; rewrite H; ring). rewrite edge_sum_scale. ring.
Qed.
Lemma polygon_ne l : l <> [] -> exists p r, fl l = p :: r /\ polygon l = p :: r ++ [p].
Proof. destruct l as [|p l]; [easy|]. intros _. exists (point p), (map point l). split; reflexivity. Qed.
Lemma polygon_loop l : l <> [] -> loop (polygon l).
Proof. intro N. destruct (polygon_ne l N) as (p & r & _ & ->). exists p, (r ++ [p]). split; [reflexivity|apply last_last]. Qed.
Lemma polygon_sum f l : l <> [] -> edge_sum f (polygon l) = cyc f (fl l).
Proof. intro N. destruct (polygon_ne l N) as (p & r & E & ->). rewrite edge_sum_snoc. unfold cyc. rewrite E. cbn [hd]. now rewrite last_cons. Qed.
Lemma fl_ne l : l <> [] -> fl l <> [].
Proof. destruct l; easy. Qed.
Lemma fl_rev l : fl (rev l) = rev (fl l).
Proof. apply map_rev. Qed.

(** The ends are at most tau apart. *)
Definition gap (tau : R) (L : list (R * R)) : Prop := Rabs (fst (hd o2 L) - fst (last L o2)) <= tau /\ Rabs (snd (hd o2 L) - snd (last L o2)) <= tau.
Lemma gap_rev tau L : L <> [] -> gap tau L -> gap tau (rev L).
Proof. intros N [A B]. unfold gap. rewrite last_rev, hd_rev by exact N. rewrite Rabs_minus_sym in A. rewrite Rabs_minus_sym in B. now split. Qed.

Definition boxed (C : R) (L : list (R * R)) : Prop := forall p, In p L -> Rabs (fst p) <= C /\ Rabs (snd p) <= C.
Lemma hd_in (L : list (R * R)) : L <> [] -> In (hd o2 L) L.
Proof. destruct L; [easy|]. intros _. now left. Qed.
Lemma last_in (L : list (R * R)) : L <> [] -> In (last L o2) L.
Proof. intro N. destruct (exists_last N) as (L' & x & ->). rewrite last_last. apply in_or_app. right. now left. Qed.

Lemma abs_mul_le a b x y : Rabs x <= a -> Rabs y <= b -> Rabs (x * y) <= a * b.
Proof. intros. rewrite Rabs_mult. apply Rmult_le_compat; auto using Rabs_pos. Qed.
Lemma abs_add_le a b x y : Rabs x <= a -> Rabs y <= b -> Rabs (x + y) <= a + b.
Proof. intros. eapply Rle_trans; [apply Rabs_triang|]. lra. Qed.
Lemma abs_sub_le a b x y : Rabs x <= a -> Rabs y <= b -> Rabs (x - y) <= a + b.
Proof. intros. unfold Rminus. apply abs_add_le; [|rewrite Rabs_Ropp]; assumption. Qed.

(** The edge that closes the polygon contributes little. *)
Lemma closing_ccw C tau L : L <> [] -> boxed C L -> gap tau L -> Rabs (ccw_edge (last L o2) (hd o2 L)) <= 2 * (C * tau).
Proof.
  intros N B [G1 G2]. destruct (B _ (hd_in L N)) as [_ H2]. destruct (B _ (last_in L N)) as [_ H4]. unfold ccw_edge.
  replace (2 * (C * tau)) with (tau * (C + C)) by ring. apply abs_mul_le; [exact G1|]. now apply abs_add_le.
Qed.
Lemma closing_crs C tau L : L <> [] -> boxed C L -> gap tau L -> Rabs (crs (last L o2) (hd o2 L)) <= 2 * (C * tau).
Proof.
  intros N B [G1 G2]. destruct (B _ (last_in L N)) as [H3 H4]. unfold crs. set (h := hd o2 L) in *. set (e := last L o2) in *.
  replace (fst e * snd h - fst h * snd e) with (fst e * (snd h - snd e) - (fst h - fst e) * snd e) by ring.
  replace (2 * (C * tau)) with (C * tau + tau * C) by ring. apply abs_sub_le; now apply abs_mul_le.
Qed.
Lemma closing_mom (g : R * R -> R) C tau L : L <> [] -> boxed C L -> (forall p, In p L -> Rabs (g p) <= C) -> gap tau L -> Rabs (mom g (last L o2) (hd o2 L)) <= 4 * (C * C * tau).
Proof.
  intros N B Bg G. unfold mom. replace (4 * (C * C * tau)) with ((C + C) * (2 * (C * tau))) by ring. apply abs_mul_le; [|now apply closing_crs].
  apply abs_add_le; apply Bg; [now apply last_in|now apply hd_in].
Qed.
Lemma cross_le C p q : Rabs (fst p) <= C -> Rabs (snd p) <= C -> Rabs (fst q) <= C -> Rabs (snd q) <= C -> Rabs (crs p q) <= 2 * (C * C).
Proof. intros. unfold crs. replace (2 * (C * C)) with (C * C + C * C) by ring. apply abs_sub_le; now apply abs_mul_le. Qed.

Lemma area_ne dot64 (l : list (f64 * f64)) : l <> [] ->
  get_area_2d64 dot64 l = Ok (fmul f_half (Babs (fsub (dot64 (map fst l) (roll64 (map snd l))) (dot64 (map snd l) (roll64 (map fst l)))))).
Proof. destruct l; [easy|reflexivity]. Qed.

Section Points.
  Variables (l : list (f64 * f64)) (C : R).
  Hypothesis Hs : sane_points l C.
  Hypothesis Hn : l <> [].
  Let n := INR (length l).

  Lemma HF p : In p l -> is_finite (fst p) = true /\ is_finite (snd p) = true /\ Rabs (B2R (fst p)) <= C /\ Rabs (B2R (snd p)) <= C.
  Proof. apply (proj1 Hs). Qed.
  Lemma Hlen : 1 <= n <= 1048576.
  Proof.
    split; [|exact (proj1 (proj2 Hs))]. unfold n. destruct l as [|p r]; [easy|]. change (length (p :: r)) with (S (length r)). rewrite S_INR. pose proof (pos_INR (length r)). lra.
  Qed.
  Lemma HC : bp (-50) <= C <= bp 50.
  Proof. exact (proj2 (proj2 Hs)). Qed.
  Lemma PC : 0 < C. Proof. pose proof HC. pose proof (bpow_gt_0 radix2 (-50)). lra. Qed.
  Lemma SC1 : scale C.
  Proof. pose proof HC as [A B]. split; [eapply Rle_trans; [|exact A]|eapply Rle_trans; [exact B|]]; apply bpow_le; lia. Qed.
  Lemma C2b : bp (-100) <= C * C <= bp 100.
  Proof.
    pose proof HC as [A B]. pose proof (bpow_gt_0 radix2 (-50)). replace (bp (-100)) with (bp (-50) * bp (-50)) by apply bp_mul. replace (bp 100) with (bp 50 * bp 50) by apply bp_mul.
    split; apply Rmult_le_compat; lra.
  Qed.
  Lemma C3b : bp (-150) <= C * (C * C) <= bp 150.
  Proof.
    pose proof HC as [A B]. pose proof C2b as [A2 B2]. pose proof (bpow_gt_0 radix2 (-50)). pose proof (bpow_gt_0 radix2 (-100)). replace (bp (-150)) with (bp (-50) * bp (-100)) by apply bp_mul. replace (bp 150) with (bp 50 * bp 100) by apply bp_mul.
    split; apply Rmult_le_compat; lra.
  Qed.
  Lemma SC2 : scale (C * C).
  Proof. pose proof C2b as [A B]. split; [eapply Rle_trans; [|exact A]|eapply Rle_trans; [exact B|]]; apply bpow_le; lia. Qed.
  Lemma SC3 : scale (C * (C * C)).
  Proof. pose proof C3b as [A B]. split; [eapply Rle_trans; [|exact A]|eapply Rle_trans; [exact B|]]; apply bpow_le; lia. Qed.
  Lemma PCC : 0 < C * C. Proof. pose proof PC. now apply Rmult_lt_0_compat. Qed.
  Lemma PCCC : 0 < C * (C * C). Proof. pose proof PC. pose proof PCC. now apply Rmult_lt_0_compat. Qed.
  Lemma box : boxed C (fl l).
  Proof. intros p Hp. apply in_map_iff in Hp as (q & <- & Hq). destruct (HF q Hq) as (_ & _ & A & B). now split. Qed.
  Lemma edges_n : edges l = n - 1. Proof. reflexivity. Qed.

  Lemma n0 M f : 0 <= M -> is_finite f = true -> near M 0 f (B2R f).
  Proof. intros. apply near_self; [lra|assumption|assumption]. Qed.

  (** Terms of the three loops. *)
  Lemma sum_near (u v : f64) : is_finite u = true -> is_finite v = true -> Rabs (B2R u) <= C -> Rabs (B2R v) <= C -> near C 2.02 (fadd u v) (B2R u + B2R v) /\ Rabs (B2R u + B2R v) <= 2 * C.
  Proof.
    intros Fu Fv Lu Lv. pose proof PC. pose proof uu_le. assert (L : Rabs (B2R u + B2R v) <= 2 * C) by (replace (2 * C) with (C + C) by ring; now apply abs_add_le). split; [|exact L].
    apply near_weak with (0 + 0 + 1.01 * 2); [lra| |lra]. apply near_add; auto using SC1, n0, Rlt_le; lra.
  Qed.
  Lemma dif_near (u v : f64) : is_finite u = true -> is_finite v = true -> Rabs (B2R u) <= C -> Rabs (B2R v) <= C -> near C 2.02 (fsub u v) (B2R u - B2R v) /\ Rabs (B2R u - B2R v) <= 2 * C.
  Proof.
    intros Fu Fv Lu Lv. pose proof PC. pose proof uu_le. assert (L : Rabs (B2R u - B2R v) <= 2 * C) by (replace (2 * C) with (C + C) by ring; now apply abs_sub_le). split; [|exact L].
    apply near_weak with (0 + 0 + 1.01 * 2); [lra| |lra]. apply near_sub; auto using SC1, n0, Rlt_le; lra.
  Qed.
  Lemma prod_near (u v : f64) : is_finite u = true -> is_finite v = true -> Rabs (B2R u) <= C -> Rabs (B2R v) <= C -> near (C * C) 1.02 (fmul u v) (B2R u * B2R v) /\ Rabs (B2R u * B2R v) <= C * C.
  Proof.
    intros Fu Fv Lu Lv. pose proof PC. split; [|now apply abs_mul_le].
    apply near_weak with (0 * 1 + 0 * 1 + 1.02 * (1 * 1)); [left; apply PCC| |lra]. apply near_mul; auto using SC2, n0, Rlt_le; lra.
  Qed.
  Lemma ccw_near p q : In p l -> In q l -> near (C * C) 12.16 (fmul (fsub (fst q) (fst p)) (fadd (snd q) (snd p))) (ccw_edge (point p) (point q)) /\ Rabs (ccw_edge (point p) (point q)) <= 4 * (C * C).
  Proof.
    intros Hp Hq. destruct (HF p Hp) as (F1 & F2 & L1 & L2). destruct (HF q Hq) as (F3 & F4 & L3 & L4). pose proof PC. unfold ccw_edge, point. cbn [fst snd].
    destruct (dif_near _ _ F3 F1 L3 L1) as [N1 B1]. destruct (sum_near _ _ F4 F2 L4 L2) as [N2 B2].
    split; [|replace (4 * (C * C)) with ((2 * C) * (2 * C)) by ring; now apply abs_mul_le].
    apply near_weak with (2.02 * 2 + 2.02 * 2 + 1.02 * (2 * 2)); [left; apply PCC| |lra]. apply near_mul; auto using SC2; lra.
  Qed.
  Lemma crs_near p q : In p l -> In q l -> near (C * C) 4.06 (cross64 p q) (crs (point p) (point q)) /\ Rabs (crs (point p) (point q)) <= 2 * (C * C).
  Proof.
    intros Hp Hq. destruct (HF p Hp) as (F1 & F2 & L1 & L2). destruct (HF q Hq) as (F3 & F4 & L3 & L4). pose proof PCC. pose proof uu_le.
    assert (B : Rabs (crs (point p) (point q)) <= 2 * (C * C)) by (apply cross_le; assumption). split; [|exact B].
    unfold crs, point in *. cbn [fst snd] in *. unfold cross64. destruct (prod_near _ _ F1 F4 L1 L4) as [N1 _]. destruct (prod_near _ _ F3 F2 L3 L2) as [N2 _].
    apply near_weak with (1.02 + 1.02 + 1.01 * 2); [lra| |lra]. apply near_sub; auto using SC2; lra.
  Qed.
  Lemma mom_near (h : f64 * f64 -> f64) (g : R * R -> R) p q : (forall p, g (point p) = B2R (h p)) -> (forall p, In p l -> is_finite (h p) = true /\ Rabs (B2R (h p)) <= C) -> In p l -> In q l ->
    near (C * (C * C)) 16.24 (fmul (fadd (h p) (h q)) (cross64 p q)) (mom g (point p) (point q)) /\ Rabs (mom g (point p) (point q)) <= 4 * (C * (C * C)).
  Proof.
    intros E Hh Hp Hq. destruct (Hh p Hp) as [F1 L1]. destruct (Hh q Hq) as [F2 L2]. unfold mom. rewrite !E. pose proof PC. pose proof PCC.
    destruct (sum_near _ _ F1 F2 L1 L2) as [N1 B1]. destruct (crs_near p q Hp Hq) as [N2 B2].
    split; [|replace (4 * (C * (C * C))) with ((2 * C) * (2 * (C * C))) by ring; now apply abs_mul_le].
    apply near_weak with (2.02 * 2 + 4.06 * 2 + 1.02 * (2 * 2)); [left; apply PCCC| |lra]. apply near_mul; auto using SC3; lra.
  Qed.

  (** ** Orientation *)
  Lemma ccw_sum_near tau : gap tau (fl l) ->
    let s := edge_loop64 (fun p q => fmul (fsub (fst q) (fst p)) (fadd (snd q) (snd p))) f0 l in
    is_finite s = true /\ Rabs (B2R s + cyc crs (fl l)) <= 5 * (n ^ 2 * C * C * uu) + 2 * (C * tau).
  Proof.
    intros G s. pose proof Hlen as Ln. pose proof PCC. pose proof uu_le.
    destruct (edge_loop_sum (fun p q => fmul (fsub (fst q) (fst p)) (fadd (snd q) (snd p))) ccw_edge (C * C) 4 12.16 l SC2 ltac:(lra) ltac:(lra) Hn) as [[F E] _]; [rewrite edges_n; lra|apply ccw_near|].
    split; [exact F|]. fold s in E. rewrite edges_n in E.
    assert (Ec : cyc crs (fl l) = - cyc ccw_edge (fl l)).
    { pose proof (ccw_sum _ (polygon_loop l Hn)) as H1. rewrite !polygon_sum in H1 by exact Hn. lra. }
    rewrite Ec. unfold cyc. replace (B2R s + - (edge_sum ccw_edge (fl l) + ccw_edge (last (fl l) o2) (hd o2 (fl l)))) with ((B2R s - edge_sum ccw_edge (fl l)) - ccw_edge (last (fl l) o2) (hd o2 (fl l))) by ring.
    apply abs_sub_le; [|apply closing_ccw; auto using fl_ne, box].
    eapply Rle_trans; [exact E|]. replace (5 * (n ^ 2 * C * C * uu)) with (5 * n ^ 2 * (uu * (C * C))) by ring. apply Rmult_le_compat_r; [apply Rmult_le_pos; lra|]. pose proof (Rle_0_sqr (n - 2.125)) as Sq. unfold Rsqr in Sq. lra.
  Qed.
  Lemma check_ok tau : gap tau (fl l) -> 5 * (n ^ 2 * C * C * uu + C * tau) < Rabs (cyc crs (fl l)) -> 0 <= tau -> check_ccw64 l = Rltb 0 (cyc crs (fl l)).
  Proof.
    intros G L Pt. destruct (ccw_sum_near tau G) as [F E]. unfold check_ccw64. set (s := edge_loop64 _ f0 l) in *. pose proof PC. assert (0 <= C * tau) by (apply Rmult_le_pos; lra).
    assert (E' : Rabs (B2R s + cyc crs (fl l)) < Rabs (cyc crs (fl l))) by lra. clear E L.
    destruct (Rltb_spec 0 (cyc crs (fl l))) as [P|P].
    - rewrite (Rabs_pos_eq (cyc crs (fl l))) in E' by lra. apply Rabs_def2 in E'. apply ltb_val; [exact F|reflexivity|]. change (B2R f0) with 0. lra.
    - apply Rnot_lt_le in P. rewrite (Rabs_left1 (cyc crs (fl l))) in E' by lra. apply Rabs_def2 in E'. apply ltb_val_f; [exact F|reflexivity|]. change (B2R f0) with 0. lra.
  Qed.

  (** ** Area *)
  Variable dot64 : list f64 -> list f64 -> f64.
  Hypothesis Hdot : scalar_product dot64.
  Lemma dotR_dot (x y : list f64) : dotR (combine x y) = dot (map B2R x) (map B2R y).
  Proof. revert y. induction x as [|a x IH]; intros [|b y]; [reflexivity..|]. cbn [combine map]. rewrite dot_cons, <- IH. reflexivity. Qed.
  Lemma roll_map (x : list f64) : map B2R (roll64 x) = roll (map B2R x).
  Proof.
    destruct x as [|a x]; [reflexivity|]. unfold roll64, roll. cbn [map]. f_equal.
    - change 0 with (B2R f0). change (B2R a :: map B2R x) with (map (@B2R 53 1024) (a :: x)). now rewrite last_map.
    - revert a. induction x as [|b x IH]; intro a; [reflexivity|]. cbn [map removelast] in *. now rewrite IH.
  Qed.
  Lemma roll_len (x : list f64) : length (roll64 x) = length x.
  Proof. destruct x as [|a x]; [reflexivity|]. unfold roll64. cbn [length]. f_equal. revert a. induction x as [|b x IH]; intro a; [reflexivity|]. cbn [removelast length] in *. now rewrite IH. Qed.
  Lemma roll_in (x : list f64) a : In a (roll64 x) -> In a x.
  Proof.
    destruct x as [|b x]; [easy|]. unfold roll64. intro H. assert (N : b :: x <> []) by discriminate.
    rewrite (app_removelast_last f0 N). apply in_or_app. destruct H as [<-|H]; [right; now left|now left].
  Qed.
  Lemma dot_part (f g : f64 * f64 -> f64) : (forall p, In p l -> is_finite (f p) = true /\ Rabs (B2R (f p)) <= C) -> (forall p, In p l -> is_finite (g p) = true /\ Rabs (B2R (g p)) <= C) ->
    near (C * C) (1.01 * n ^ 2) (dot64 (map f l) (roll64 (map g l))) (dot (map B2R (map f l)) (roll (map B2R (map g l)))) /\ Rabs (dot (map B2R (map f l)) (roll (map B2R (map g l)))) <= n * (C * C).
  Proof.
    intros Hf Hg. pose proof (Hdot (map f l) (roll64 (map g l)) ltac:(now rewrite roll_len, !map_length)) as D. set (m := combine (map f l) (roll64 (map g l))) in *.
    assert (Lm : length m = length l) by (unfold m; rewrite combine_length, roll_len, !map_length; lia).
    assert (Hm : forall p, In p m -> is_finite (fst p) = true /\ is_finite (snd p) = true /\ Rabs (B2R (fst p)) <= C /\ Rabs (B2R (snd p)) <= C).
    { intros [a b] H. cbn [fst snd]. pose proof (in_combine_l _ _ _ _ H) as H1. pose proof (in_combine_r _ _ _ _ H) as H2. apply roll_in in H2.
      apply in_map_iff in H1 as (p & <- & Hp). apply in_map_iff in H2 as (q & <- & Hq). destruct (Hf p Hp), (Hg q Hq). auto. }
    rewrite <- roll_map, <- dotR_dot. fold m. split.
    - unfold n. rewrite <- Lm. apply dots_ok; auto using SC2, PC. rewrite Lm. apply Hlen.
    - unfold n. rewrite <- Lm. apply dotR_le; [left; apply PC|]. intros p Hp. destruct (Hm p Hp) as (_ & _ & H). exact H.
  Qed.
  Lemma area_near : exists a, get_area_2d64 dot64 l = Ok a /\ near (C * C) (3.1 * n ^ 2) a (Rabs (cyc crs (fl l)) / 2) /\ Rabs (cyc crs (fl l)) <= 2 * n * (C * C).
  Proof.
    destruct (dot_part fst snd) as [[F1 E1] B1]; [intros p Hp; destruct (HF p Hp) as (? & ? & ? & ?); auto..|].
    destruct (dot_part snd fst) as [[F2 E2] B2]; [intros p Hp; destruct (HF p Hp) as (? & ? & ? & ?); auto..|].
    assert (Ex : map (@B2R 53 1024) (map fst l) = map fst (fl l)) by (unfold fl; rewrite !map_map; reflexivity).
    assert (Ez : map (@B2R 53 1024) (map snd l) = map snd (fl l)) by (unfold fl; rewrite !map_map; reflexivity).
    unfold f64 in *. rewrite Ex, Ez in E1, B1, E2, B2. clear Ex Ez.
    set (d1 := dot64 (map fst l) (roll64 (map snd l))) in *. set (d2 := dot64 (map snd l) (roll64 (map fst l))) in *.
    set (r1 := dot (map fst (fl l)) (roll (map snd (fl l)))) in *. set (r2 := dot (map snd (fl l)) (roll (map fst (fl l)))) in *.
    assert (Er : Rabs (r1 - r2) = Rabs (cyc crs (fl l))).
    { destruct (polygon_ne l Hn) as (p & r & El & _). pose proof (area_cyclic p r) as A. unfold get_area_2d in A. rewrite <- El in A. cbv zeta in A. fold r1 r2 in A. rewrite El, edge_sum_cons in A. apply ok_inj in A.
      unfold cyc. rewrite El. cbn [hd]. rewrite last_cons. rewrite Rplus_comm. lra. }
    pose proof Hlen as Ln. pose proof PCC. pose proof uu_le as U. rewrite <- Er.
    assert (Br : Rabs (r1 - r2) <= 2 * n * (C * C)). { replace (2 * n * (C * C)) with (n * (C * C) + n * (C * C)) by ring. now apply abs_sub_le. }
    assert (Q : n * n <= 1048576 * n) by nra.
    assert (Nd : near (C * C) (1.01 * n ^ 2 + 1.01 * n ^ 2 + 1.01 * (2 * n)) (fsub d1 d2) (r1 - r2)).
    { apply near_sub; [apply SC2|lra|now split|now split|exact Br| |lra]. apply Rle_trans with (2.02 * (1048576 * n) * uu); [apply Rmult_le_compat_r; [lra|]; lra|]. nra. }
    destruct Nd as [Fd Ed]. set (d := fsub d1 d2) in *.
    assert (Ea : Rabs (Rabs (B2R d) - Rabs (r1 - r2)) <= (1.01 * n ^ 2 + 1.01 * n ^ 2 + 1.01 * (2 * n)) * (uu * (C * C))) by (eapply Rle_trans; [apply Rabs_triang_inv2|exact Ed]).
    assert (Sm : (1.01 * n ^ 2 + 1.01 * n ^ 2 + 1.01 * (2 * n)) * (uu * (C * C)) <= / 100 * (n * (C * C))).
    { replace ((1.01 * n ^ 2 + 1.01 * n ^ 2 + 1.01 * (2 * n)) * (uu * (C * C))) with ((2.02 * (n * n) + 2.02 * n) * uu * (C * C)) by lra. replace (/ 100 * (n * (C * C))) with (/ 100 * n * (C * C)) by ring. apply Rmult_le_compat_r; [lra|].
      apply Rle_trans with (2.02 * (1048577 * n) * uu); [apply Rmult_le_compat_r; lra|]. nra. }
    set (ab := Babs d). assert (Fb : is_finite ab = true) by (unfold ab; now rewrite is_finite_Babs). assert (Vb : B2R ab = Rabs (B2R d)) by apply B2R_Babs.
    assert (Hh : is_finite f_half = true /\ B2R f_half = / 2). { destruct (lit_value f_half 4503599627370496 (-53)) as [A B]; [vm_compute; reflexivity|]. split; [exact A|]. rewrite B. change (bp (-53)) with (/ 9007199254740992). lra. }
    destruct Hh as [Fh Vh]. exists (fmul f_half ab). split; [apply area_ne; exact Hn|]. split; [|exact Br].
    assert (Lb : Rabs (B2R d) <= 2.01 * n * (C * C)). { apply Rabs_le_inv in Ea. lra. } pose proof (Rabs_pos (B2R d)) as Pd.
    destruct (fmul_about (C * C) (1.01 * n) f_half ab SC2 ltac:(rewrite bp30; lra) Fh Fb) as [F E].
    { rewrite Vh, Vb, Rabs_mult, (Rabs_pos_eq (/ 2)), Rabs_Rabsolu by lra. lra. }
    rewrite Vh, Vb in E. split; [exact F|].
    replace (B2R (fmul f_half ab) - Rabs (r1 - r2) / 2) with ((B2R (fmul f_half ab) - / 2 * Rabs (B2R d)) + / 2 * (Rabs (B2R d) - Rabs (r1 - r2))) by field.
    eapply Rle_trans; [apply Rabs_triang|]. rewrite (Rabs_mult (/ 2)), (Rabs_pos_eq (/ 2)) by lra.
    assert (PU : 0 < uu * (C * C)) by (apply Rmult_lt_0_compat; lra).
    apply Rle_trans with ((1.01 * n + / 2 * (1.01 * n ^ 2 + 1.01 * n ^ 2 + 1.01 * (2 * n))) * (uu * (C * C))); [lra|]. apply Rmult_le_compat_r; [lra|]. nra.
  Qed.
End Points.

(** ** Quotients *)
Lemma six_val : is_finite (f64_of_Z 6) = true /\ B2R (f64_of_Z 6) = 6.
Proof. destruct (lit_value (f64_of_Z 6) 6755399441055744 (-50)) as [A B]; [vm_compute; reflexivity|]. split; [exact A|]. rewrite B. change (bp (-50)) with (/ 1125899906842624). lra. Qed.
Lemma quot_ok C A X sg (a s : f64) : 0 < C -> 0 < A -> uu * A <= sg -> 100 * sg <= A -> is_finite a = true -> Rabs (B2R a - A) <= 3.1 * sg ->
  is_finite s = true -> Rabs (B2R s - 6 * A * X) <= 6 * C * sg -> scale A -> scale (C + Rabs X) ->
  let q := fdiv s (fmul (f64_of_Z 6) a) in is_finite q = true /\ Rabs (B2R q - X) <= (2.2 * C + 5.5 * Rabs X) * (sg / A).
Proof.
  intros PC PA US SA Fa Ea Fs Es Sa Sx q. destruct six_val as [F6 V6]. pose proof uu_le as U. apply Rabs_le_inv in Ea.
  assert (Psg : 0 < sg). { assert (0 < uu * A) by (apply Rmult_lt_0_compat; lra). lra. }
  destruct (fmul_about A 6.3 (f64_of_Z 6) a Sa ltac:(rewrite bp30; lra) F6 Fa) as [Fm Em]. { rewrite V6, Rabs_pos_eq by lra. lra. } rewrite V6 in Em. set (m := fmul (f64_of_Z 6) a) in *. apply Rabs_le_inv in Em.
  assert (Dm : Rabs (B2R m - 6 * A) <= 25 * sg) by (apply Rabs_le; lra).
  assert (Lm : 5.7 * A <= B2R m). { apply Rabs_le_inv in Dm. lra. } assert (Pm : 0 < B2R m) by lra.
  set (d := sg / A). assert (Ed : sg = d * A) by (unfold d; field; lra). assert (Pd : 0 < d) by (apply Rdiv_lt_0_compat; lra).
  assert (Ld : d <= / 100). { apply (Rmult_le_reg_r A); [exact PA|]. rewrite <- Ed. lra. } assert (Ud : uu <= d). { apply (Rmult_le_reg_r A); [exact PA|]. rewrite <- Ed. lra. }
  assert (Q : Rabs (B2R s / B2R m - X) <= (1.06 * C + 4.39 * Rabs X) * d).
  { replace (B2R s / B2R m - X) with (((B2R s - 6 * A * X) + X * (6 * A - B2R m)) * / B2R m) by (field; lra). rewrite Rabs_mult, (Rabs_pos_eq (/ B2R m)) by (left; now apply Rinv_0_lt_compat).
    assert (Nu : Rabs ((B2R s - 6 * A * X) + X * (6 * A - B2R m)) <= (6 * C + Rabs X * 25) * sg).
    { replace ((6 * C + Rabs X * 25) * sg) with (6 * C * sg + Rabs X * (25 * sg)) by ring. apply abs_add_le; [exact Es|]. apply abs_mul_le; [apply Rle_refl|]. rewrite Rabs_minus_sym. exact Dm. }
    pose proof (Rabs_pos X) as PX. assert (Iv : / B2R m <= / (5.7 * A)) by (apply Rinv_le_contravar; lra).
    apply Rle_trans with ((6 * C + Rabs X * 25) * sg * / (5.7 * A)). { apply Rmult_le_compat; auto using Rabs_pos. left; now apply Rinv_0_lt_compat. }
    rewrite Ed. replace ((6 * C + Rabs X * 25) * (d * A) * / (5.7 * A)) with ((6 * C + Rabs X * 25) / 5.7 * d) by (field; lra). apply Rmult_le_compat_r; lra. }
  pose proof (Rabs_pos X) as PX.
  assert (Q' : (1.06 * C + 4.39 * Rabs X) * d <= (1.06 * C + 4.39 * Rabs X) * / 100) by (apply Rmult_le_compat_l; lra).
  destruct (fdiv_about (C + Rabs X) 1.1 s m Sx ltac:(rewrite bp30; lra) Fs Fm ltac:(lra)) as [Fq Eq].
  { replace (B2R s / B2R m) with ((B2R s / B2R m - X) + X) by ring. eapply Rle_trans; [apply Rabs_triang|]. lra. }
  split; [exact Fq|]. fold q in Eq. fold d. replace (B2R q - X) with ((B2R q - B2R s / B2R m) + (B2R s / B2R m - X)) by ring. eapply Rle_trans; [apply Rabs_triang|].
  assert (uu * (C + Rabs X) <= d * (C + Rabs X)) by (apply Rmult_le_compat_r; lra). assert (0 <= C * d) by (apply Rmult_le_pos; lra). assert (0 <= Rabs X * d) by (apply Rmult_le_pos; lra). lra.
Qed.
(** 2 * np.pi * area * centre. *)
Lemma revolve_ok C A X sg (a c : f64) : 0 < C -> 0 < A -> uu * A <= sg -> 100 * sg <= A -> is_finite a = true -> Rabs (B2R a - A) <= 3.1 * sg ->
  is_finite c = true -> Rabs (B2R c - X) <= (2.2 * C + 5.5 * Rabs X) * (sg / A) -> scale A -> scale (A * (C + Rabs X)) ->
  let v := fmul (fmul (fmul f2 f_pi) a) c in is_finite v = true /\ Rabs (B2R v - 2 * PI * A * X) <= (25 * C + 85 * Rabs X) * sg.
Proof.
  intros PC PA US SA Fa Ea Fc Ec Sa Sx v. destruct two_pi as [Fp Vp]. set (P := fmul f2 f_pi) in *. pose proof uu_le as U. pose proof PI_16 as [P1 P2]. change (bp (-50)) with (/ 1125899906842624) in Vp.
  assert (Psg : 0 < sg). { assert (0 < uu * A) by (apply Rmult_lt_0_compat; lra). lra. }
  assert (U' : uu = / 9007199254740992) by (rewrite uu_val; reflexivity).
  assert (Dp : Rabs (B2R P - 2 * PI) <= 10 * uu) by (rewrite U'; apply Rabs_le; lra). assert (BP : 6.28 <= B2R P <= 6.29) by lra. clear Vp U'.
  apply Rabs_le_inv in Ea. assert (La : 0.96 * A <= B2R a <= 1.04 * A) by lra.
  destruct (fmul_about A 6.6 P a Sa ltac:(rewrite bp30; lra) Fp Fa) as [Fm Em]. { rewrite Rabs_pos_eq by (apply Rmult_le_pos; lra). apply Rle_trans with (6.29 * (1.04 * A)); [apply Rmult_le_compat; lra|lra]. }
  set (m := fmul P a) in *.
  assert (Dm : Rabs (B2R m - 2 * PI * A) <= 37 * sg).
  { replace (B2R m - 2 * PI * A) with ((B2R m - B2R P * B2R a) + (B2R P * (B2R a - A) + (B2R P - 2 * PI) * A)) by ring.
    replace (37 * sg) with (7 * sg + (20 * sg + 10 * sg)) by ring. apply abs_add_le; [lra|]. apply abs_add_le.
    - apply Rle_trans with (6.29 * (3.1 * sg)); [|lra]. apply abs_mul_le; [rewrite Rabs_pos_eq; lra|apply Rabs_le; lra].
    - apply Rle_trans with (10 * uu * A); [|lra]. apply abs_mul_le; [exact Dp|rewrite Rabs_pos_eq; lra]. }
  set (d := sg / A) in *. assert (Ed : sg = d * A) by (unfold d; field; lra). assert (Pd : 0 < d) by (apply Rdiv_lt_0_compat; lra).
  assert (Ld : d <= / 100). { apply (Rmult_le_reg_r A); [exact PA|]. rewrite <- Ed. lra. }
  pose proof (Rabs_pos X) as PX.
  assert (Q' : (2.2 * C + 5.5 * Rabs X) * d <= (2.2 * C + 5.5 * Rabs X) * / 100) by (apply Rmult_le_compat_l; lra).
  assert (Bc : Rabs (B2R c) <= 0.022 * C + 1.055 * Rabs X). { replace (B2R c) with ((B2R c - X) + X) by ring. eapply Rle_trans; [apply Rabs_triang|]. lra. }
  assert (Bm : Rabs (B2R m) <= 6.7 * A). { replace (B2R m) with ((B2R m - 2 * PI * A) + 2 * PI * A) by ring. eapply Rle_trans; [apply Rabs_triang|]. rewrite (Rabs_pos_eq (2 * PI * A)) by (apply Rmult_le_pos; lra). nra. }
  assert (PAC : 0 < A * C) by (apply Rmult_lt_0_compat; lra). assert (PAX : 0 <= A * Rabs X) by (apply Rmult_le_pos; lra).
  destruct (fmul_about (A * (C + Rabs X)) 7.1 m c Sx ltac:(rewrite bp30; lra) Fm Fc) as [Fv Ev].
  { apply Rle_trans with (6.7 * A * (0.022 * C + 1.055 * Rabs X)); [now apply abs_mul_le|]. lra. }
  split; [exact Fv|]. fold v in Ev.
  replace (B2R v - 2 * PI * A * X) with ((B2R v - B2R m * B2R c) + ((B2R m - 2 * PI * A) * B2R c + 2 * PI * A * (B2R c - X))) by ring.
  assert (UA : uu * (A * (C + Rabs X)) <= sg * (C + Rabs X)). { rewrite <- Rmult_assoc. apply Rmult_le_compat_r; lra. }
  apply Rle_trans with (7.1 * (sg * (C + Rabs X)) + (37 * sg * (0.022 * C + 1.055 * Rabs X) + 6.29 * A * ((2.2 * C + 5.5 * Rabs X) * d))).
  - apply abs_add_le; [eapply Rle_trans; [exact Ev|]; lra|]. apply abs_add_le; [now apply abs_mul_le|]. apply abs_mul_le; [rewrite Rabs_pos_eq by (apply Rmult_le_pos; lra); apply Rmult_le_compat_r; lra|exact Ec].
  - replace (6.29 * A * ((2.2 * C + 5.5 * Rabs X) * d)) with (6.29 * ((2.2 * C + 5.5 * Rabs X) * (d * A))) by ring. rewrite <- Ed.
    assert (0 <= sg * C) by (apply Rmult_le_pos; lra). assert (0 <= sg * Rabs X) by (apply Rmult_le_pos; lra). lra.
Qed.
