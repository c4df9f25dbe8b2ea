(** Lemmas for C88: boundaries seen once from a point, and boundaries with one side going up and one going down, are simple closed curves. *)
From Coq Require Import Reals Lra Lia ZArith List Bool Classical.
From Verif Require Import Base Space SpaceProofs SpecSpace Geometry GeometryProofs SpecGeometry SpecConvex ConvexProofs SpecGrid GridProofs GridConvex SpecStar.
Import ListNotations.
Open Scope R_scope.

(** ** For all small enough e *)
Definition soon (P : R -> Prop) : Prop := exists e0, 0 < e0 /\ forall e, 0 < e < e0 -> P e.
Lemma soon_and P Q : soon P -> soon Q -> soon (fun e => P e /\ Q e).
Proof.
  intros (a & Pa & Ha) (b & Pb & Hb). exists (Rmin a b). split; [now apply Rmin_glb_lt|]. intros e [He Hm]. pose proof (Rmin_l a b). pose proof (Rmin_r a b). split; [apply Ha|apply Hb]; lra.
Qed.
Lemma soon_imp (P Q : R -> Prop) : (forall e, 0 < e -> P e -> Q e) -> soon P -> soon Q.
Proof. intros H (a & Pa & Ha). exists a. split; [exact Pa|]. intros e He. apply H; [lra|]. now apply Ha. Qed.
Lemma soon_true (P : R -> Prop) : (forall e, 0 < e -> P e) -> soon P.
Proof. intro H. exists 1. split; [lra|]. intros e He. apply H. lra. Qed.
Lemma soon_list {A} (P : A -> R -> Prop) l : (forall x, In x l -> soon (P x)) -> soon (fun e => forall x, In x l -> P x e).
Proof.
  induction l as [|a l IH]; intro H; [apply soon_true; intros e _ x []|]. apply (soon_imp (fun e => P a e /\ forall x, In x l -> P x e)).
  - intros e _ [H1 H2] x [<-|Hx]; auto.
  - apply soon_and; [apply H; now left|apply IH; intros; apply H; now right].
Qed.
Lemma soon_ex P : soon P -> exists e, P e.
Proof. intros (a & Pa & Ha). exists (a / 2). apply Ha. lra. Qed.
Lemma soon_pos A B C : 0 < A \/ (A = 0 /\ 0 < B) -> soon (fun e => 0 < A + B * e + C * (e * e)).
Proof.
  intros [PA|[-> PB]].
  - set (K := Rabs B + Rabs C + 1). assert (PK : 0 < K) by (unfold K; pose proof (Rabs_pos B); pose proof (Rabs_pos C); lra).
    exists (Rmin 1 (A / K)). split; [apply Rmin_glb_lt; [lra|now apply Rdiv_lt_0_compat]|]. intros e [He Hm]. pose proof (Rmin_l 1 (A / K)). pose proof (Rmin_r 1 (A / K)).
    assert (e * K < A) by (apply Rlt_le_trans with (A / K * K); [apply Rmult_lt_compat_r; lra|right; field; lra]).
    pose proof (Rle_abs (- B)) as B1. rewrite Rabs_Ropp in B1. pose proof (Rle_abs (- C)) as C1. rewrite Rabs_Ropp in C1.
    assert (- (Rabs B * e) <= B * e) by (assert (- B * e <= Rabs B * e) by (apply Rmult_le_compat_r; lra); lra).
    assert (- (Rabs C * (e * e)) <= C * (e * e)) by (assert (- C * (e * e) <= Rabs C * (e * e)) by (apply Rmult_le_compat_r; nra); lra).
    assert (Rabs C * (e * e) <= Rabs C * e) by (apply Rmult_le_compat_l; [apply Rabs_pos|nra]). unfold K in *. nra.
  - set (K := Rabs C + 1). assert (PK : 0 < K) by (unfold K; pose proof (Rabs_pos C); lra). exists (B / K). split; [now apply Rdiv_lt_0_compat|]. intros e [He Hm].
    assert (e * K < B) by (apply Rlt_le_trans with (B / K * K); [apply Rmult_lt_compat_r; lra|right; field; lra]).
    pose proof (Rle_abs (- C)) as C1. rewrite Rabs_Ropp in C1. assert (- C * e <= Rabs C * e) by (apply Rmult_le_compat_r; lra). unfold K in *. assert (0 < e * (B + C * e)) by (apply Rmult_lt_0_compat; lra). lra.
Qed.
Lemma soon_neg A B C : A < 0 \/ (A = 0 /\ B < 0) -> soon (fun e => A + B * e + C * (e * e) < 0).
Proof. intro H. apply (soon_imp (fun e => 0 < - A + - B * e + - C * (e * e))); [intros; lra|]. apply soon_pos. lra. Qed.
Lemma soon_nonzero A B C : A <> 0 \/ B <> 0 \/ C <> 0 -> soon (fun e => A + B * e + C * (e * e) <> 0).
Proof.
  intro H. destruct (Rtotal_order A 0) as [Q|[->|Q]]; [apply (soon_imp (fun e => A + B * e + C * (e * e) < 0)); [intros; lra|now apply soon_neg; left]| |apply (soon_imp (fun e => 0 < A + B * e + C * (e * e))); [intros; lra|now apply soon_pos; left]].
  destruct (Rtotal_order B 0) as [Q|[->|Q]]; [apply (soon_imp (fun e => 0 + B * e + C * (e * e) < 0)); [intros; lra|apply soon_neg; right; lra]| |apply (soon_imp (fun e => 0 < 0 + B * e + C * (e * e))); [intros; lra|apply soon_pos; right; lra]].
  apply soon_true. intros e He. assert (C <> 0) by tauto. assert (0 < e * e) by nra. rewrite Rmult_0_l, !Rplus_0_l. apply Rmult_integral_contrapositive_currified; lra.
Qed.

(** ** A point moved a little aside (s = 1 or -1) and a very little down *)
Definition aside (s : R) (p : R * R) (e : R) : R * R := (fst p + s * e, snd p - e * e).
Lemma turn_aside s p a b e : turn a b (aside s p e) = turn a b p + (- s * (snd b - snd a)) * e + (- (fst b - fst a)) * (e * e).
Proof. unfold turn, aside. cbn [fst snd]. ring. Qed.
Lemma soon_above s p z : z < snd p -> soon (fun e => z < snd (aside s p e)).
Proof. intro H. apply (soon_imp (fun e => 0 < (snd p - z) + 0 * e + -1 * (e * e))); [intros e _ He; unfold aside; cbn [snd]; lra|]. apply soon_pos. lra. Qed.
Lemma ww_aside s p a b : (s = 1 \/ s = -1) -> (s = 1 -> goes_up p a b = true -> turn a b p <> 0) -> (s = -1 -> goes_down p a b = true -> turn a b p <> 0) -> soon (fun e => ww (aside s p e) a b = ww p a b).
Proof.
  intros Hs H1 H2.
  assert (Below : forall z, snd p <= z -> forall e, 0 < e -> snd (aside s p e) <= z) by (intros z Hz e He; unfold aside; cbn [snd]; nra).
  unfold ww, goes_up, goes_down, at_or_above in *. destruct (Rleb_spec (snd p) (snd a)) as [A|A], (Rleb_spec (snd p) (snd b)) as [B|B]; cbn [negb andb b2r] in *.
  - apply soon_true. intros e He. pose proof (Below _ A e He). pose proof (Below _ B e He). destruct (Rleb_spec (snd (aside s p e)) (snd a)); [|lra]. destruct (Rleb_spec (snd (aside s p e)) (snd b)); [|lra]. reflexivity.
  - (* down *)
    assert (Q : soon (fun e => Rltb (turn a b (aside s p e)) 0 = Rltb (turn a b p) 0)).
    { destruct (Rtotal_order (turn a b p) 0) as [T|[T|T]].
      - apply (soon_imp (fun e => turn a b p + (- s * (snd b - snd a)) * e + (- (fst b - fst a)) * (e * e) < 0)); [|apply soon_neg; now left]. intros e _ He. destruct (Rltb_spec (turn a b (aside s p e)) 0), (Rltb_spec (turn a b p) 0); try reflexivity; rewrite turn_aside in *; lra.
      - destruct Hs as [->| ->]; [|exfalso; now apply H2].
        apply (soon_imp (fun e => 0 < turn a b p + (- 1 * (snd b - snd a)) * e + (- (fst b - fst a)) * (e * e))); [|apply soon_pos; right; lra]. intros e _ He. destruct (Rltb_spec (turn a b (aside 1 p e)) 0), (Rltb_spec (turn a b p) 0); try reflexivity; rewrite turn_aside in *; lra.
      - apply (soon_imp (fun e => 0 < turn a b p + (- s * (snd b - snd a)) * e + (- (fst b - fst a)) * (e * e))); [|apply soon_pos; now left]. intros e _ He. destruct (Rltb_spec (turn a b (aside s p e)) 0), (Rltb_spec (turn a b p) 0); try reflexivity; rewrite turn_aside in *; lra. }
    apply (soon_imp (fun e => snd b < snd (aside s p e) /\ Rltb (turn a b (aside s p e)) 0 = Rltb (turn a b p) 0)); [|apply soon_and; [apply soon_above; lra|exact Q]].
    intros e He [E1 E2]. pose proof (Below _ A e He). destruct (Rleb_spec (snd (aside s p e)) (snd a)); [|lra]. destruct (Rleb_spec (snd (aside s p e)) (snd b)); [lra|]. cbn [negb andb b2r]. now rewrite E2.
  - (* up *)
    assert (Q : soon (fun e => Rleb 0 (turn a b (aside s p e)) = Rleb 0 (turn a b p))).
    { destruct (Rtotal_order (turn a b p) 0) as [T|[T|T]].
      - apply (soon_imp (fun e => turn a b p + (- s * (snd b - snd a)) * e + (- (fst b - fst a)) * (e * e) < 0)); [|apply soon_neg; now left]. intros e _ He. destruct (Rleb_spec 0 (turn a b (aside s p e))), (Rleb_spec 0 (turn a b p)); try reflexivity; rewrite turn_aside in *; lra.
      - destruct Hs as [->| ->]; [exfalso; now apply H1|].
        apply (soon_imp (fun e => 0 < turn a b p + (- -1 * (snd b - snd a)) * e + (- (fst b - fst a)) * (e * e))); [|apply soon_pos; right; lra]. intros e _ He. destruct (Rleb_spec 0 (turn a b (aside (-1) p e))), (Rleb_spec 0 (turn a b p)); try reflexivity; rewrite turn_aside in *; lra.
      - apply (soon_imp (fun e => 0 < turn a b p + (- s * (snd b - snd a)) * e + (- (fst b - fst a)) * (e * e))); [|apply soon_pos; now left]. intros e _ He. destruct (Rleb_spec 0 (turn a b (aside s p e))), (Rleb_spec 0 (turn a b p)); try reflexivity; rewrite turn_aside in *; lra. }
    apply (soon_imp (fun e => snd a < snd (aside s p e) /\ Rleb 0 (turn a b (aside s p e)) = Rleb 0 (turn a b p))); [|apply soon_and; [apply soon_above; lra|exact Q]].
    intros e He [E1 E2]. pose proof (Below _ B e He). destruct (Rleb_spec (snd (aside s p e)) (snd a)); [lra|]. destruct (Rleb_spec (snd (aside s p e)) (snd b)); [|lra]. cbn [negb andb b2r]. now rewrite E2.
  - apply (soon_imp (fun e => snd a < snd (aside s p e) /\ snd b < snd (aside s p e))); [|apply soon_and; apply soon_above; lra].
    intros e He [E1 E2]. destruct (Rleb_spec (snd (aside s p e)) (snd a)); [lra|]. destruct (Rleb_spec (snd (aside s p e)) (snd b)); [lra|]. reflexivity.
Qed.

(** ** One triangle *)
Section Triangle.
  Variables c a b : R * R.
  Hypothesis H : 0 < turn c a b.
  Notation tri := [c; a; b; c].
  Lemma tri_edges p q : edge tri p q -> (p = c /\ q = a) \/ (p = a /\ q = b) \/ (p = b /\ q = c).
  Proof.
    intros (l1 & l2 & E). destruct l1 as [|x1 [|x2 [|x3 [|x4 l1]]]]; cbn [app] in E; injection E; intros; subst; auto; try discriminate.
    all: try (now destruct l1). 
  Qed.
  Lemma tri_convex : convex_polygon tri.
  Proof.
    assert (Nca : c <> a) by (intros ->; unfold turn in H; lra). assert (Ncb : c <> b) by (intros ->; unfold turn in H; lra). assert (Nab : a <> b) by (intros ->; unfold turn in H; lra).
    split; [cbn; lia|]. split.
    - exists c, [a; b; c]. repeat split. constructor; [cbn; intros [E|[E|[]]]; congruence|]. constructor; [cbn; intros [E|[]]; congruence|]. constructor; [intros []|constructor].
    - intros p q d E I N1 N2. assert (Id : d = c \/ d = a \/ d = b) by (cbn in I; intuition congruence).
      destruct (tri_edges p q E) as [[-> ->]|[[-> ->]|[-> ->]]]; destruct Id as [->|[->| ->]]; try congruence; unfold turn in *; lra.
  Qed.
  Definition tri_w (p : R * R) : R := ww p c a + ww p a b + ww p b c.
  Lemma tri_sum p : edge_sum (ww p) tri = tri_w p.
  Proof. rewrite !edge_sum_cons. change (edge_sum (ww p) [c]) with 0. unfold tri_w. ring. Qed.
  Lemma tri_cases p : tri_w p = 0 \/ (tri_w p = 1 /\ 0 <= turn c a p /\ 0 <= turn b c p).
  Proof.
    pose proof (convex_simple _ tri_convex) as S. pose proof (convex_loop _ tri_convex) as L. destruct (winds_ex p tri (loop_nonempty _ L)) as (n & W & E & P). rewrite tri_sum in E. destruct S as [_ [S|S]]; destruct (S p n (fun F => F) W) as [->| ->]; [now left| |now left|].
    - right. split; [now rewrite <- E|]. assert (I : mpl_inside tri p = true) by (rewrite (inside_parity _ p L), <- P; reflexivity). apply (inside_convex _ tri_convex) in I. destruct I as [I _]. split; apply I; [now exists [], [b; c]|now exists [c; a], []].
    - right. assert (I : mpl_inside tri p = true) by (rewrite (inside_parity _ p L), <- P; reflexivity).
      exfalso. assert (D : edge_sum (ww p) tri = 0 \/ edge_sum (ww p) tri = 1).
      { pose proof (convex_simple _ tri_convex) as S'. unfold simple, simple_but in S'. destruct S' as [_ S']. clear S. rewrite tri_sum, <- E. 
        apply (inside_convex _ tri_convex) in I. destruct I as [I _]. exfalso.
        (* all turns are at least 0, so no edge going down counts *)
        assert (N : 0 <= tri_w p). { unfold tri_w, ww. assert (T : forall q r, edge tri q r -> Rltb (turn q r p) 0 = false) by (intros q r Eqr; specialize (I q r Eqr); destruct (Rltb_spec (turn q r p) 0); [lra|reflexivity]).
          rewrite (T c a), (T a b), (T b c), !andb_false_r by (first [now exists [], [b; c]|now exists [c], [c]|now exists [c; a], []]). cbn [b2r]. unfold b2r. repeat destruct (_ && _); lra. }
        rewrite <- E in N. lra. }
      rewrite tri_sum, <- E in D. lra.
  Qed.
End Triangle.
Lemma ww_back p a b : turn a b p <> 0 -> ww p b a = - ww p a b.
Proof.
  intro H. assert (E : turn b a p = - turn a b p) by (unfold turn; ring). unfold ww. rewrite E.
  replace (goes_up p b a) with (goes_down p a b) by (unfold goes_up, goes_down; now rewrite andb_comm). replace (goes_down p b a) with (goes_up p a b) by (unfold goes_up, goes_down; now rewrite andb_comm).
  replace (Rleb 0 (- turn a b p)) with (Rltb (turn a b p) 0) by (destruct (Rltb_spec (turn a b p) 0), (Rleb_spec 0 (- turn a b p)); try reflexivity; lra).
  replace (Rltb (- turn a b p) 0) with (Rleb 0 (turn a b p)) by (destruct (Rleb_spec 0 (turn a b p)), (Rltb_spec (- turn a b p) 0); try reflexivity; lra). ring.
Qed.

(** ** Directions *)
Lemma polar t0 (c q : R * R) : q <> c -> exists rho phi, 0 < rho /\ t0 <= phi < t0 + 2 * PI /\ q = (fst c + rho * cos phi, snd c + rho * sin phi).
Proof.
  intro N. pose proof PI_RGT_0 as Pp. set (x := fst q - fst c). set (y := snd q - snd c). assert (P : 0 < x * x + y * y).
  { destruct (Req_dec x 0) as [X|X]; [destruct (Req_dec y 0) as [Y|Y]|]; [exfalso; apply N; destruct c, q; cbn in x, y; unfold x, y in *; f_equal; lra| |]; [assert (0 < y * y) by nra|assert (0 < x * x) by nra]; nra. }
  set (rho := sqrt (x * x + y * y)). assert (Pr : 0 < rho) by now apply sqrt_lt_R0. assert (Er : rho * rho = x * x + y * y) by (apply sqrt_sqrt; lra).
  assert (X1 : -1 <= x / rho <= 1). { assert (x <= rho /\ - rho <= x) as [X1 X2] by (split; nra). split; apply (Rmult_le_reg_r rho); try exact Pr; unfold Rdiv; rewrite Rmult_assoc, Rinv_l by lra; lra. }
  assert (Ex : exists phi, x = rho * cos phi /\ y = rho * sin phi).
  { assert (C : rho * cos (acos (x / rho)) = x) by (rewrite cos_acos by exact X1; field; lra).
    assert (S : rho * sin (acos (x / rho)) = Rabs y).
    { assert (X2 : 0 <= 1 - (x / rho)²) by (unfold Rsqr; nra). rewrite sin_acos by exact X1. apply Rsqr_inj; [apply Rmult_le_pos; [lra|apply sqrt_pos]|apply Rabs_pos|]. rewrite Rsqr_mult, Rsqr_sqrt, <- Rsqr_abs by exact X2. unfold Rsqr. replace (rho * rho * (1 - x / rho * (x / rho))) with (rho * rho - x * x) by (field; lra). lra. }
    destruct (Rle_dec 0 y) as [Y|Y]; [exists (acos (x / rho))|exists (- acos (x / rho))]; rewrite ?cos_neg, ?sin_neg; (split; [now rewrite C|]); [rewrite S, Rabs_pos_eq; lra|]. replace (rho * - sin (acos (x / rho))) with (- (rho * sin (acos (x / rho)))) by ring. rewrite S, Rabs_left by lra. lra. }
  destruct Ex as (phi & E1 & E2). set (k := Int_part ((phi - t0) / (2 * PI))). destruct (Int_part_spec ((phi - t0) / (2 * PI))) as [K1 K2]. fold k in K1, K2.
  assert (Q : (phi - t0) / (2 * PI) * (2 * PI) = phi - t0) by (field; lra).
  exists rho, (phi - 2 * IZR k * PI). split; [exact Pr|]. split; [nra|].
  assert (Pd : cos (phi - 2 * IZR k * PI) = cos phi /\ sin (phi - 2 * IZR k * PI) = sin phi).
  { destruct (Z_le_gt_dec 0 k) as [G|G].
    - destruct (IZN k G) as [n En]. rewrite En, <- INR_IZR_INZ. rewrite <- (cos_period (phi - 2 * INR n * PI) n), <- (sin_period (phi - 2 * INR n * PI) n). now replace (phi - 2 * INR n * PI + 2 * INR n * PI) with phi by ring.
    - destruct (IZN (- k)) as [n En]; [lia|]. assert (Ek : IZR k = - INR n) by (rewrite INR_IZR_INZ, <- En, opp_IZR; ring). rewrite Ek. replace (phi - 2 * - INR n * PI) with (phi + 2 * INR n * PI) by ring. now rewrite cos_period, sin_period. }
  destruct Pd as [-> ->]. rewrite <- E1, <- E2. destruct c, q. unfold x, y. cbn [fst snd]. f_equal; ring.
Qed.
Lemma sin_sign x : - (2 * PI) < x < 2 * PI -> 0 < sin x -> 0 < x < PI \/ x < - PI.
Proof.
  intros Hx Hs. pose proof PI_RGT_0. destruct (Rlt_dec x (- PI)) as [A|A]; [now right|]. left. destruct (Rle_dec x 0) as [B|B].
  - exfalso. assert (0 <= sin (- x)) by (apply sin_ge_0; lra). rewrite sin_neg in H0. lra.
  - split; [lra|]. destruct (Rlt_dec x PI) as [D|D]; [exact D|]. exfalso. assert (sin x <= 0) by (apply sin_le_0; lra). lra.
Qed.
Lemma cone t0 phi u v : t0 <= phi < t0 + 2 * PI -> t0 <= u -> u < v < u + PI -> v <= t0 + 2 * PI -> 0 < sin (phi - u) -> sin (phi - v) < 0 -> u < phi < v.
Proof.
  intros Hp Hu Huv Hv Su Sv. pose proof PI_RGT_0. apply sin_sign in Su; [|lra]. assert (Sv' : 0 < sin (v - phi)) by (replace (v - phi) with (- (phi - v)) by ring; rewrite sin_neg; lra).
  destruct (Req_dec v phi) as [E|E]; [rewrite E in Sv'; replace (phi - phi) with 0 in Sv' by ring; rewrite sin_0 in Sv'; lra|].
  destruct (Req_dec (v - phi) (2 * PI)) as [E2|E2]; [rewrite E2, sin_2PI in Sv'; lra|].
  apply sin_sign in Sv'; lra.
Qed.

(** ** Lists of angles *)
Lemma turning_sorted ts : turning ts -> forall l1 u v l2, ts = l1 ++ u :: v :: l2 -> u < v < u + PI /\ (forall w, In w l1 -> w < u) /\ (forall w, In w l2 -> v < w).
Proof.
  assert (Up : forall t ts, turning (t :: ts) -> forall w, In w ts -> t < w).
  { clear. intros t ts. revert t. induction ts as [|u ts IH]; intros t H w Hw; [contradiction|]. inversion H; subst. destruct Hw as [<-|Hw]; [lra|]. specialize (IH u H4 w Hw). lra. }
  induction 1 as [t|t u ts Htu H IH]; intros l1 a b l2 E; [destruct l1 as [|? [|? ?]]; discriminate|].
  destruct l1 as [|x l1]; cbn [app] in E.
  - injection E as <- <- <-. split; [exact Htu|]. split; [intros w []|]. intros w Hw. now apply (Up u ts).
  - injection E as <- E. destruct (IH l1 a b l2 E) as (A & B & C). split; [exact A|]. split; [|exact C]. intros w [<-|Hw]; [|now apply B].
    assert (In a (u :: ts)) by (rewrite E; apply in_app_iff; right; now left). apply (Up t (u :: ts)); [now constructor|exact H0].
Qed.
Lemma consec_unique ts phi l1 u v l2 l1' u' v' l2' : turning ts -> ts = l1 ++ u :: v :: l2 -> ts = l1' ++ u' :: v' :: l2' -> u < phi < v -> u' < phi < v' -> u = u' /\ v = v'.
Proof.
  intros H E E' Hp Hp'. destruct (turning_sorted ts H l1 u v l2 E) as (A & B & C). destruct (turning_sorted ts H l1' u' v' l2' E') as (A' & B' & C').
  assert (I : forall w, In w ts -> w <= u \/ v <= w) by (intros w Hw; rewrite E in Hw; apply in_app_iff in Hw; destruct Hw as [Hw|[<-|[<-|Hw]]]; [specialize (B w Hw)|..|specialize (C w Hw)]; lra).
  assert (I' : forall w, In w ts -> w <= u' \/ v' <= w) by (intros w Hw; rewrite E' in Hw; apply in_app_iff in Hw; destruct Hw as [Hw|[<-|[<-|Hw]]]; [specialize (B' w Hw)|..|specialize (C' w Hw)]; lra).
  assert (In u ts) by (rewrite E; apply in_app_iff; right; now left). assert (In v ts) by (rewrite E; apply in_app_iff; right; right; now left).
  assert (In u' ts) by (rewrite E'; apply in_app_iff; right; now left). assert (In v' ts) by (rewrite E'; apply in_app_iff; right; right; now left).
  pose proof (I u' H2). pose proof (I v' H3). pose proof (I' u H0). pose proof (I' v H1). lra.
Qed.
Lemma count_cone (f : R * R -> R * R -> R) (P : R -> R * R) phi ts : turning ts ->
  (forall l1 u v l2, ts = l1 ++ u :: v :: l2 -> f (P u) (P v) = 0 \/ (f (P u) (P v) = 1 /\ u < phi < v)) ->
  (edge_sum f (map P ts) = 0 \/ edge_sum f (map P ts) = 1) /\ forall t r, ts = t :: r -> phi <= t -> edge_sum f (map P ts) = 0.
Proof.
  induction 1 as [t|t u ts Htu H IH]; intro Hf; [split; [left; reflexivity|reflexivity]|].
  destruct IH as [I1 I2]. { intros l1 a b l2 E. apply (Hf (t :: l1) a b l2). cbn [app]. now rewrite <- E. }
  change (map P (t :: u :: ts)) with (P t :: P u :: map P ts). rewrite edge_sum_cons. change (P u :: map P ts) with (map P (u :: ts)).
  destruct (Hf [] t u ts eq_refl) as [F|[F Hp]].
  - rewrite F, Rplus_0_l. split; [exact I1|]. intros t' r E Hp. injection E as <- <-. apply (I2 u ts eq_refl). lra.
  - rewrite F, (I2 u ts eq_refl) by lra. split; [right; ring|]. intros t' r E Hp'. injection E as <- <-. lra.
Qed.

(** ** A boundary seen once from c *)
Section Star.
  Variables (c : R * R) (r : R -> R) (t0 : R) (ts : list R).
  Hypothesis Ht : turning (t0 :: ts).
  Hypothesis Hlast : last ts t0 = t0 + 2 * PI.
  Hypothesis Hr : forall u, 0 < r u /\ r (u + 2 * PI) = r u.
  Notation P := (at_angle c r).
  Notation l := (map P (t0 :: ts)).
  Lemma star_loop : loop l.
  Proof.
    exists (P t0), (map P ts). split; [reflexivity|].
    assert (M : forall xs d, last (map P xs) (P d) = P (last xs d)) by (induction xs as [|x xs IH]; intro d; [reflexivity|]; destruct xs; [reflexivity|apply (IH d)]). rewrite M, Hlast. unfold at_angle. destruct (Hr t0) as [_ ->]. replace (t0 + 2 * PI) with (t0 + 2 * INR 1 * PI) by (cbn [INR]; ring). now rewrite cos_period, sin_period.
  Qed.
  Lemma star_edge a b : edge l a b -> exists l1 u v l2, t0 :: ts = l1 ++ u :: v :: l2 /\ a = P u /\ b = P v.
  Proof.
    intros (m1 & m2 & E). apply map_eq_app in E. destruct E as (l1 & l2 & E1 & _ & E2). apply map_eq_cons in E2 as (u & l3 & -> & <- & E3). apply map_eq_cons in E3 as (v & l4 & -> & <- & _). exists l1, u, v, l4. auto.
  Qed.
  Lemma star_range l1 u v l2 : t0 :: ts = l1 ++ u :: v :: l2 -> t0 <= u /\ u < v < u + PI /\ v <= t0 + 2 * PI.
  Proof.
    intro E. destruct (turning_sorted _ Ht l1 u v l2 E) as (A & B & C). split; [|split; [exact A|]].
    - destruct l1 as [|x l1]; cbn [app] in E; injection E as -> E; [lra|]. specialize (B x (or_introl eq_refl)). lra.
    - assert (L : last (t0 :: ts) t0 = t0 + 2 * PI) by (destruct ts as [|y ys]; [exact Hlast|]; exact Hlast). rewrite E in L. clear -L C. rewrite <- L. assert (Q : last (l1 ++ u :: v :: l2) t0 = last (v :: l2) t0).
      { clear. induction l1 as [|x l1 IH]; [reflexivity|]. cbn [app]. destruct (l1 ++ u :: v :: l2) as [|y ys] eqn:E; [now destruct l1|]. exact IH. }
      rewrite Q. destruct l2 as [|w l2]; [cbn; lra|]. assert (I : In (last (v :: w :: l2) t0) (w :: l2)).
      { clear. change (last (v :: w :: l2) t0) with (last (w :: l2) t0). revert w. induction l2 as [|x l2 IH]; intro w; [now left|]. right. apply (IH x). }
      specialize (C _ I). lra.
  Qed.
  Lemma turn_at u rho phi : turn c (P u) (fst c + rho * cos phi, snd c + rho * sin phi) = r u * rho * sin (phi - u).
  Proof. unfold turn, at_angle. cbn [fst snd]. rewrite sin_minus. ring. Qed.
  Lemma star_left a b : edge l a b -> 0 < turn c a b.
  Proof.
    intro E. destruct (star_edge a b E) as (l1 & u & v & l2 & El & -> & ->). destruct (star_range l1 u v l2 El) as (_ & A & _). unfold at_angle at 2. rewrite turn_at. apply Rmult_lt_0_compat; [apply Rmult_lt_0_compat; apply Hr|]. apply sin_gt_0; lra.
  Qed.
  (** The sector of an edge, as an interval of directions. *)
  Lemma star_cone q rho phi l1 u v l2 : 0 < rho -> t0 <= phi < t0 + 2 * PI -> q = (fst c + rho * cos phi, snd c + rho * sin phi) -> t0 :: ts = l1 ++ u :: v :: l2 -> 0 < turn c (P u) q -> turn c (P v) q < 0 -> u < phi < v.
  Proof.
    intros Pr Hp -> E A B. rewrite turn_at in A, B. destruct (star_range l1 u v l2 E) as (R1 & R2 & R3). apply (cone t0 phi u v Hp R1 R2 R3).
    - destruct (Rle_dec (sin (phi - u)) 0) as [Q|Q]; [|lra]. exfalso. assert (0 < r u * rho) by (apply Rmult_lt_0_compat; [apply Hr|exact Pr]). nra.
    - destruct (Rle_dec 0 (sin (phi - v))) as [Q|Q]; [|lra]. exfalso. assert (0 < r v * rho) by (apply Rmult_lt_0_compat; [apply Hr|exact Pr]). nra.
  Qed.
  (** A point on none of the lines through c and a corner. *)
  Lemma star_generic q : (forall v, In v l -> turn c v q <> 0) -> edge_sum (ww q) l = 0 \/ edge_sum (ww q) l = 1.
  Proof.
    intro G. assert (Nq : q <> c) by (intros ->; apply (G (P t0)); [now left|unfold turn; ring]).
    destruct (polar t0 c q Nq) as (rho & phi & Pr & Hp & Eq).
    assert (E : edge_sum (ww q) l = edge_sum (fun a b => tri_w c a b q) l).
    { rewrite <- (Rplus_0_r (edge_sum (ww q) l)), <- (edge_sum_loop (fun v => - ww q c v) l star_loop), <- edge_sum_plus. apply edge_sum_ext_edges. intros a b Eab. destruct (edge_In _ a b Eab) as [Ia Ib]. unfold tri_w. rewrite (ww_back q c b) by now apply G. ring. }
    rewrite E. apply (count_cone (fun a b => tri_w c a b q) P phi (t0 :: ts) Ht). intros l1 u v l2 El.
    assert (Eab : edge l (P u) (P v)) by (exists (map P l1), (map P l2); rewrite El, map_app; reflexivity). destruct (edge_In _ _ _ Eab) as [Iu Iv].
    destruct (tri_cases c (P u) (P v) (star_left _ _ Eab) q) as [Z|(O & A & B)]; [now left|]. right. split; [exact O|]. pose proof (G _ Iu). pose proof (G _ Iv).
    apply (star_cone q rho phi l1 u v l2 Pr Hp Eq El); [lra|]. assert (turn (P v) c q = - turn c (P v) q) by (unfold turn; ring). lra.
  Qed.
  (** A point on an edge, not a corner, lies strictly inside the sector of the edge. *)
  Lemma on_edge p a b : edge l a b -> ~ In p l -> turn a b p = 0 -> (snd a < snd p <= snd b \/ snd b < snd p <= snd a) -> 0 < turn c a p /\ turn c b p < 0.
  Proof.
    intros E N T H. pose proof (star_left a b E) as Hab. destruct (edge_In _ a b E) as [Ia Ib]. set (s := (snd p - snd a) / (snd b - snd a)).
    assert (D : snd b - snd a <> 0) by lra. assert (Es : snd p = snd a + s * (snd b - snd a)) by (unfold s; field; exact D).
    assert (Ex : fst p = fst a + s * (fst b - fst a)). { unfold turn in T. rewrite Es in T. assert (Q : (snd b - snd a) * (fst p - (fst a + s * (fst b - fst a))) = 0) by lra. apply Rmult_integral in Q. lra. }
    assert (Hs : 0 < s < 1).
    { assert (S0 : s <> 0) by (intro Z; apply N; rewrite Z in Es, Ex; replace p with a; [exact Ia|]; destruct a, p; cbn [fst snd] in *; f_equal; lra).
      assert (S1 : s <> 1) by (intro Z; apply N; rewrite Z in Es, Ex; replace p with b; [exact Ib|]; destruct b, p; cbn [fst snd] in *; f_equal; lra).
      destruct H as [H|H]; nra. }
    assert (E1 : turn c a p = s * turn c a b) by (unfold turn; rewrite Es, Ex; ring). assert (E2 : turn c b p = - ((1 - s) * turn c a b)) by (unfold turn; rewrite Es, Ex; ring).
    split; [rewrite E1; apply Rmult_lt_0_compat; lra|]. rewrite E2. assert (0 < (1 - s) * turn c a b) by (apply Rmult_lt_0_compat; lra). lra.
  Qed.
  Lemma star_not_both p a b a' b' : ~ In p l -> edge l a b -> edge l a' b' -> goes_up p a b = true -> turn a b p = 0 -> goes_down p a' b' = true -> turn a' b' p = 0 -> False.
  Proof.
    intros N E E' U T D T'. apply goes_up_spec in U. apply goes_down_spec in D. destruct (on_edge p a b E N T ltac:(tauto)) as [A1 A2]. destruct (on_edge p a' b' E' N T' ltac:(tauto)) as [B1 B2].
    assert (Np : p <> c) by (intros ->; unfold turn in A1; lra). destruct (polar t0 c p Np) as (rho & phi & Pr & Hp & Eq).
    destruct (star_edge a b E) as (l1 & u & v & l2 & El & -> & ->). destruct (star_edge a' b' E') as (l1' & u' & v' & l2' & El' & -> & ->).
    destruct (consec_unique _ phi l1 u v l2 l1' u' v' l2' Ht El El') as [-> ->]; [now apply (star_cone p rho phi l1 u v l2)|now apply (star_cone p rho phi l1' u' v' l2')|]. lra.
  Qed.
End Star.
(** The winding number at p is that at a point beside it. *)
Lemma soon_sum s p l : (s = 1 \/ s = -1) -> (forall a b, edge l a b -> (s = 1 -> goes_up p a b = true -> turn a b p <> 0) /\ (s = -1 -> goes_down p a b = true -> turn a b p <> 0)) -> soon (fun e => edge_sum (ww (aside s p e)) l = edge_sum (ww p) l).
Proof.
  intro Hs. induction l as [|a l IH]; intro H; [now apply soon_true|]. destruct l as [|b l]; [now apply soon_true|].
  apply (soon_imp (fun e => ww (aside s p e) a b = ww p a b /\ edge_sum (ww (aside s p e)) (b :: l) = edge_sum (ww p) (b :: l))).
  - intros e _ [E1 E2]. now rewrite !edge_sum_cons, E1, E2.
  - apply soon_and; [apply ww_aside; [exact Hs|apply (H a b), edge_here..]|]. apply IH. intros x y E. apply H. now apply edge_next.
Qed.
Lemma soon_off s p c v : v <> c -> (s = 1 \/ s = -1) -> soon (fun e => turn c v (aside s p e) <> 0).
Proof.
  intros N Hs. apply (soon_imp (fun e => turn c v p + (- s * (snd v - snd c)) * e + (- (fst v - fst c)) * (e * e) <> 0)); [intros e _ He; now rewrite turn_aside|]. apply soon_nonzero.
  destruct (Req_dec (snd v) (snd c)) as [E|E]; [|right; left; destruct Hs as [->| ->]; lra]. right. right. intro F. apply N. destruct v, c. cbn [fst snd] in *. f_equal; lra.
Qed.

Definition no_bad (s : R) (p : R * R) (l : list (R * R)) : Prop := forall a b, edge l a b -> (s = 1 -> goes_up p a b = true -> turn a b p <> 0) /\ (s = -1 -> goes_down p a b = true -> turn a b p <> 0).
Lemma no_bad_ex p l : (forall a b a' b', edge l a b -> edge l a' b' -> goes_up p a b = true -> turn a b p = 0 -> goes_down p a' b' = true -> turn a' b' p = 0 -> False) -> exists s, (s = 1 \/ s = -1) /\ no_bad s p l.
Proof.
  intro H. destruct (classic (exists a b, edge l a b /\ goes_up p a b = true /\ turn a b p = 0)) as [(a & b & E & U & T)|N].
  - exists (-1). split; [now right|]. intros a' b' E'. split; [lra|]. intros _ D T'. exact (H a b a' b' E E' U T D T').
  - exists 1. split; [now left|]. intros a' b' E'. split; [|lra]. intros _ U T. apply N. now exists a', b'.
Qed.
Lemma star_beside l c p : (forall a b, edge l a b -> 0 < turn c a b) -> (forall v, In v l -> v <> c) ->
  (forall a b a' b', edge l a b -> edge l a' b' -> goes_up p a b = true -> turn a b p = 0 -> goes_down p a' b' = true -> turn a' b' p = 0 -> False) ->
  (exists q, edge_sum (ww q) l = edge_sum (ww p) l /\ forall v, In v l -> turn c v q <> 0) /\
  (exists q, edge_sum (ww q) (rev l) = edge_sum (ww p) (rev l) /\ (forall v, In v l -> turn c v q <> 0) /\ forall a b, edge l a b -> turn a b q <> 0).
Proof.
  intros Hl Hv Hb. split.
  - destruct (no_bad_ex p l Hb) as (s & Hs & N). destruct (soon_ex _ (soon_and _ _ (soon_sum s p l Hs N) (soon_list _ l (fun v I => soon_off s p c v (Hv v I) Hs)))) as (e & E & G). now exists (aside s p e).
  - assert (Rv : forall a b, edge (rev l) a b -> edge l b a). { intros a b (m1 & m2 & E). exists (rev m2), (rev m1). rewrite <- (rev_involutive l), E, rev_app_distr. cbn [rev]. now rewrite <- !app_assoc. }
    assert (Hb' : forall a b a' b', edge (rev l) a b -> edge (rev l) a' b' -> goes_up p a b = true -> turn a b p = 0 -> goes_down p a' b' = true -> turn a' b' p = 0 -> False).
    { intros a b a' b' E E' U T D T'. apply (Hb b' a' b a (Rv _ _ E') (Rv _ _ E)).
      - rewrite <- D. unfold goes_up, goes_down. apply andb_comm.
      - rewrite <- (Ropp_involutive (turn b' a' p)). replace (- turn b' a' p) with (turn a' b' p) by (unfold turn; ring). lra.
      - rewrite <- U. unfold goes_up, goes_down. apply andb_comm.
      - rewrite <- (Ropp_involutive (turn b a p)). replace (- turn b a p) with (turn a b p) by (unfold turn; ring). lra. }
    destruct (no_bad_ex p (rev l) Hb') as (s & Hs & N).
    assert (Se : soon (fun e => forall ab, In ab (list_prod l l) -> edge l (fst ab) (snd ab) -> turn (fst ab) (snd ab) (aside s p e) <> 0)).
    { apply soon_list. intros [a b] _. cbn [fst snd]. destruct (classic (edge l a b)) as [E|E]; [|apply soon_true; intros; contradiction].
      apply (soon_imp (fun e => turn a b (aside s p e) <> 0)); [auto|]. apply soon_off; [|exact Hs]. intros ->. specialize (Hl _ _ E). unfold turn in Hl. lra. }
    destruct (soon_ex _ (soon_and _ _ (soon_sum s p (rev l) Hs N) (soon_and _ _ (soon_list _ l (fun v I => soon_off s p c v (Hv v I) Hs)) Se))) as (e & E & G & G2).
    exists (aside s p e). split; [exact E|]. split; [exact G|]. intros a b Eab. destruct (edge_In _ a b Eab) as [Ia Ib]. apply (G2 (a, b)); [now apply in_prod|exact Eab].
Qed.
Lemma seen_once_sum l p : seen_once l -> ~ In p l -> (edge_sum (ww p) l = 0 \/ edge_sum (ww p) l = 1) /\ (edge_sum (ww p) (rev l) = 0 \/ edge_sum (ww p) (rev l) = -1).
Proof.
  intros (c & r & t & ts & -> & Ht & Hl & Hr) N.
  assert (Hv : forall v, In v (map (at_angle c r) (t :: ts)) -> v <> c).
  { intros v I ->. apply in_map_iff in I as (u & E & _). destruct (Hr u) as [R _]. unfold at_angle in E. destruct c as [x z]. cbn [fst snd] in E. injection E as E1 E2. pose proof (sin2_cos2 u) as S. unfold Rsqr in S. assert (cos u = 0) by nra. assert (sin u = 0) by nra. nra. }
  destruct (star_beside _ c p (star_left c r t ts Ht Hl Hr) Hv (fun a b a' b' E E' => star_not_both c r t ts Ht Hl Hr p a b a' b' N E E')) as [(q & E & G) (q' & E' & G' & G2)].
  split; [rewrite <- E; now apply (star_generic c r t ts)|]. rewrite <- E'.
  assert (Q : edge_sum (ww q') (rev (map (at_angle c r) (t :: ts))) = - edge_sum (ww q') (map (at_angle c r) (t :: ts))).
  { rewrite edge_sum_rev. replace (- edge_sum (ww q') (map (at_angle c r) (t :: ts))) with (-1 * edge_sum (ww q') (map (at_angle c r) (t :: ts))) by ring. rewrite <- edge_sum_scale. apply edge_sum_ext_edges. intros a b Eab. rewrite ww_back by now apply G2. ring. }
  rewrite Q. destruct (star_generic c r t ts Ht Hl Hr q' G') as [->| ->]; [left|right]; ring.
Qed.

(** ** Boundaries with one side going up and one going down *)
Lemma count_cases (f : R * R -> R * R -> bool) l : (edge_sum (fun a b => b2r (f a b)) l = 0 /\ forall a b, edge l a b -> f a b = false) \/ (1 <= edge_sum (fun a b => b2r (f a b)) l /\ exists a b, edge l a b /\ f a b = true).
Proof.
  induction l as [|a [|b l] IH]; [left; split; [reflexivity|]; intros a b ([|? ?] & ? & E); discriminate E| |].
  - left. split; [reflexivity|]. intros x y ([|? [|? ?]] & ? & E); discriminate E.
  - rewrite edge_sum_cons. destruct (f a b) eqn:F; cbn [b2r].
    + right. split; [|exists a, b; split; [apply edge_here|exact F]]. destruct IH as [[-> _]|[H _]]; lra.
    + rewrite Rplus_0_l. destruct IH as [[E N]|[E (x & y & Exy & T)]]; [left|right]; (split; [exact E|]).
      * intros x y ([|u m] & m2 & Q); cbn [app] in Q; injection Q; intros; subst; [exact F|]. apply N. now exists m, m2.
      * exists x, y. split; [now apply edge_next|exact T].
Qed.
Lemma count_le (f g : R * R -> R * R -> bool) l : (forall a b, edge l a b -> f a b = true -> g a b = true) -> edge_sum (fun a b => b2r (f a b)) l <= edge_sum (fun a b => b2r (g a b)) l.
Proof. intro H. apply edge_sum_le. intros a b E. specialize (H a b E). destruct (f a b); [rewrite H by reflexivity; lra|]. destruct (g a b); cbn [b2r]; lra. Qed.
Lemma ups_ex p l : l <> [] -> exists n, ups (snd p) l n /\ INR n = edge_sum (fun a b => b2r (goes_up p a b)) l.
Proof.
  induction l as [|a [|b l] IH]; intro N; [congruence|exists 0%nat; split; [constructor|reflexivity]|]. destruct IH as (n & U & E); [discriminate|]. rewrite edge_sum_cons.
  destruct (goes_up p a b) eqn:G; [exists (S n)|exists n]; (split; [|rewrite <- E, ?S_INR; cbn [b2r]; ring]).
  - apply ups_yes; [now apply goes_up_spec|exact U].
  - apply ups_no; [|exact U]. intro H. apply goes_up_spec in H. congruence.
Qed.
Lemma x_at_turn a b p : snd a <> snd b -> (snd a <= snd p <= snd b \/ snd b <= snd p <= snd a) -> exists x, x_at a b (snd p) x /\ turn a b p = (x - fst p) * (snd b - snd a).
Proof.
  intros N H. set (s := (snd p - snd a) / (snd b - snd a)). assert (E : s * (snd b - snd a) = snd p - snd a) by (unfold s; field; lra). exists (fst a + s * (fst b - fst a)). split.
  - exists s. split; [|split; [lra|reflexivity]]. destruct H as [H|H]; nra.
  - unfold turn. rewrite <- E. ring.
Qed.
Section TwoSided.
  Variable l : list (R * R).
  Hypothesis L : loop l.
  Variable p : R * R.
  Notation U := (edge_sum (fun a b => b2r (goes_up p a b)) l).
  Notation D := (edge_sum (fun a b => b2r (goes_down p a b)) l).
  Notation u := (edge_sum (fun a b => b2r (goes_up p a b && Rleb 0 (turn a b p))) l).
  Notation d := (edge_sum (fun a b => b2r (goes_down p a b && Rltb (turn a b p) 0)) l).
  Lemma ups_downs : U = D.
  Proof.
    assert (E : edge_sum (fun a b => b2r (goes_up p a b) + -1 * b2r (goes_down p a b)) l = 0).
    { rewrite (edge_sum_ext _ (fun a b => b2r (at_or_above p b) - b2r (at_or_above p a))); [now apply edge_sum_loop|]. intros a b. unfold goes_up, goes_down. destruct (at_or_above p a), (at_or_above p b); cbn [negb andb b2r]; ring. }
    rewrite edge_sum_plus, edge_sum_scale in E. lra.
  Qed.
  Lemma ww_counts : edge_sum (ww p) l = u - d.
  Proof. rewrite (edge_sum_ext _ (fun a b => b2r (goes_up p a b && Rleb 0 (turn a b p)) + -1 * b2r (goes_down p a b && Rltb (turn a b p) 0))) by (intros; unfold ww; ring). rewrite edge_sum_plus, edge_sum_scale. ring. Qed.
  Lemma two_sided_counts : U <= 1 -> (u = 0 \/ u = 1) /\ (d = 0 \/ d = 1) /\ (0 < d -> 0 < U) /\ (0 < u -> 0 < D).
  Proof.
    intro HU. pose proof ups_downs as E. assert (U1 : u <= U) by (apply count_le; intros a b _ H; now apply andb_prop in H). assert (D1 : d <= D) by (apply count_le; intros a b _ H; now apply andb_prop in H).
    destruct (count_cases (fun a b => goes_up p a b && Rleb 0 (turn a b p)) l) as [[Eu _]|[Eu _]], (count_cases (fun a b => goes_down p a b && Rltb (turn a b p) 0) l) as [[Ed _]|[Ed _]]; repeat split; try lra.
  Qed.
End TwoSided.
Lemma two_sided_sum l p : two_sided l -> edge_sum (ww p) l = 0 \/ edge_sum (ww p) l = 1.
Proof.
  intros (L & Hu & Hx). rewrite ww_counts. destruct (ups_ex p l (loop_nonempty l L)) as (n & Un & En). specialize (Hu _ _ Un). apply le_INR in Hu. rewrite En in Hu. change (INR 1) with 1 in Hu.
  destruct (two_sided_counts l L p Hu) as (Cu & Cd & P1 & _).
  destruct (count_cases (fun a b => goes_down p a b && Rltb (turn a b p) 0) l) as [[-> _]|[Hd (a' & b' & E' & T')]]; [destruct Cu as [->| ->]; [left|right]; ring|].
  apply andb_prop in T' as [Dn T']. destruct (Rltb_spec (turn a' b' p) 0) as [T2|]; [|discriminate].
  destruct (count_cases (goes_up p) l) as [[Z _]|[_ (a & b & E & Up)]]; [lra|]. pose proof Up as Up'. pose proof Dn as Dn'. apply goes_up_spec in Up'. apply goes_down_spec in Dn'.
  destruct (x_at_turn a b p) as (x & X1 & X2); [lra|lra|]. destruct (x_at_turn a' b' p) as (x' & Y1 & Y2); [lra|lra|]. pose proof (Hx a b a' b' (snd p) x x' E E' Up' Dn' X1 Y1) as Hx'.
  assert (fst p < x') by nra. assert (0 < turn a b p) by (rewrite X2; apply Rmult_lt_0_compat; lra).
  destruct (count_cases (fun a b => goes_up p a b && Rleb 0 (turn a b p)) l) as [[_ Z]|[Z _]]; [|left; lra]. specialize (Z a b E). cbv beta in Z. rewrite Up in Z. destruct (Rleb_spec 0 (turn a b p)); [discriminate|lra].
Qed.
Lemma two_sided_rev_sum l p : two_sided (rev l) -> ~ In p l -> edge_sum (ww p) l = 0 \/ edge_sum (ww p) l = -1.
Proof.
  intros (L' & Hu & Hx) N. assert (L : loop l) by (rewrite <- (rev_involutive l); now apply loop_rev).
  assert (Rv : forall a b, edge l a b -> edge (rev l) b a). { intros a b (m1 & m2 & E). exists (rev m2), (rev m1). rewrite E, rev_app_distr. cbn [rev]. now rewrite <- !app_assoc. }
  destruct (ups_ex p (rev l) (loop_nonempty _ L')) as (n & Un & En). specialize (Hu _ _ Un). apply le_INR in Hu. rewrite En, edge_sum_rev in Hu. change (INR 1) with 1 in Hu.
  assert (Eq : edge_sum (fun a b => b2r (goes_up p b a)) l = edge_sum (fun a b => b2r (goes_down p a b)) l) by (apply edge_sum_ext; intros; unfold goes_up, goes_down; now rewrite andb_comm).
  rewrite Eq, <- (ups_downs l L p) in Hu. rewrite ww_counts.
  destruct (two_sided_counts l L p Hu) as (Cu & Cd & _ & P2).
  destruct (count_cases (fun a b => goes_up p a b && Rleb 0 (turn a b p)) l) as [[-> _]|[Hd (a' & b' & E' & T')]]; [destruct Cd as [->| ->]; [left|right]; ring|].
  apply andb_prop in T' as [Dn T']. destruct (Rleb_spec 0 (turn a' b' p)) as [T2|]; [|discriminate].
  destruct (count_cases (goes_down p) l) as [[Z _]|[_ (a & b & E & Up)]]; [lra|]. pose proof Up as Up'. pose proof Dn as Dn'. apply goes_down_spec in Up'. apply goes_up_spec in Dn'.
  destruct (x_at_turn b a p) as (x & X1 & X2); [lra|lra|]. destruct (x_at_turn b' a' p) as (x' & Y1 & Y2); [lra|lra|]. pose proof (Hx b a b' a' (snd p) x x' (Rv _ _ E) (Rv _ _ E') Up' Dn' X1 Y1) as Hx'.
  assert (S1 : turn a b p = - turn b a p) by (unfold turn; ring). assert (S2 : turn a' b' p = - turn b' a' p) by (unfold turn; ring).
  assert (P : fst p < x). { assert (fst p <= x') by nra. destruct Hx' as [Q|[Q I]]; [lra|]. destruct (Req_dec (fst p) x) as [Z|Z]; [|lra]. exfalso. apply N. apply in_rev. rewrite <- Z in I. now destruct p. }
  assert (0 < turn b a p) by (rewrite X2; apply Rmult_lt_0_compat; lra).
  destruct (count_cases (fun a b => goes_down p a b && Rltb (turn a b p) 0) l) as [[_ Z]|[Z _]]; [|left; lra]. specialize (Z a b E). cbv beta in Z. rewrite Up in Z. destruct (Rltb_spec (turn a b p) 0); [discriminate|lra].
Qed.
Lemma ups_crossed l : loop l -> (forall z n, ups z l n -> (n <= 1)%nat) -> crossed_at_most 2 l.
Proof.
  intros L Hu z n W. apply crossed_sum in W. destruct (ups_ex (0, z) l (loop_nonempty l L)) as (k & Un & En). specialize (Hu _ _ Un). pose proof (ups_downs l L (0, z)) as Q. apply le_INR in Hu. change (INR 1) with 1 in Hu.
  apply INR_le. change (INR 2) with (1 + 1). rewrite W. rewrite (edge_sum_ext _ (fun a b => b2r (goes_up (0, z) a b) + b2r (goes_down (0, z) a b))).
  - rewrite edge_sum_plus. lra.
  - intros a b. unfold sigma, goes_up, goes_down, at_or_above. cbn [snd]. destruct (Rleb z (snd a)), (Rleb z (snd b)); cbn [negb andb b2r]; [rewrite Rminus_diag_eq by reflexivity; rewrite Rabs_R0|rewrite Rabs_left by lra|rewrite Rminus_0_r, Rabs_R1|rewrite Rminus_diag_eq by reflexivity; rewrite Rabs_R0]; ring.
Qed.
Lemma crossed_rev c l : l <> [] -> crossed_at_most c (rev l) -> crossed_at_most c l.
Proof.
  intros N H z n W. apply crossed_sum in W. destruct (crossed_ex z (rev l)) as (k & Wk & Ek); [intro E; apply N; rewrite <- (rev_involutive l), E; reflexivity|]. specialize (H z k Wk). apply INR_le. rewrite W. apply le_INR in H. rewrite Ek, edge_sum_rev in H.
  rewrite (edge_sum_ext _ (fun a b => Rabs (sigma z b a))); [exact H|]. intros. unfold sigma. rewrite <- Rabs_Ropp. f_equal. ring.
Qed.
