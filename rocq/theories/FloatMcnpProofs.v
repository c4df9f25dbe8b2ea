(** Lemmas for C104: the layout of SDEF files in binary64. *)
From Coq Require Import Ascii String List Bool Arith ZArith Reals Lia Lra Permutation.
From Flocq Require Import Core.Core Plus_error IEEE754.BinarySingleNaN.
From Verif Require Import Base Reactions Space Source SpecSource OpenMCProofs SpectraData Energy TextWrap SpecText TextProofs Format SpecFormat FormatProofs P_Text Mcnp SpecMcnp McnpProofs P_Mcnp
  FloatComp FloatCompProofs FloatCompAcc FloatSource SpecFloatSource FloatSourceProofs FloatMcnp SpecFloatMcnp.
Import ListNotations.
Open Scope R_scope.
Local Notation bp := (bpow radix2).

(** ** Numbers of a card *)
Definition fin (x : f64) : Prop := is_finite x = true.
(** Finite, and not negative zero. *)
Definition plain64 (x : f64) : Prop := fin x /\ (B2R x = 0 -> Bsign x = false).
Lemma show64_plain p x : plain64 x -> show64 p x = fmt_e p (B2R x).
Proof. intros [F Z]. destruct x as [s|s| |s m e H]; try discriminate F; [|reflexivity]. cbn in Z. rewrite (Z eq_refl). reflexivity. Qed.
Lemma show64_5e_plain x : plain64 x -> show64_5e x = fmt_e 6 (B2R x).
Proof. intro P. pose proof (show64_plain 6 x P) as E. destruct P as [F _]. destruct x; try discriminate F; exact E. Qed.
Lemma numbers64_plain l : Forall plain64 l -> numbers64 l = numbers (map B2R l).
Proof. intro F. unfold numbers64, numbers. f_equal. rewrite map_map. apply map_ext_Forall. eapply Forall_impl; [|exact F]. intros. now apply show64_plain. Qed.
Lemma fin_range (x : f64) : fin x -> double_range (B2R x).
Proof.
  intro F. destruct x as [s|s| |s m e H]; try discriminate F; [left; reflexivity|]. right. split.
  - assert (B : bp (-1074) <= Rabs (B2R (B754_finite s m e H : f64))).
    { cbn [B2R]. rewrite <- F2R_Zabs, abs_cond_Zopp. unfold F2R; cbn [Fnum Fexp]. change (Z.abs (Z.pos m)) with (Z.pos m). pose proof (proj1 (andb_prop _ _ H)) as C. apply Zeq_bool_eq in C. 
      assert (E : (-1074 <= e)%Z) by (unfold SpecFloat.fexp, SpecFloat.emin in C; lia). rewrite <- (Rmult_1_l (bp (-1074))). apply Rmult_le_compat; [lra|apply bpow_ge_0|apply IZR_le; lia|apply bpow_le; exact E]. }
    eapply Rle_trans; [|exact B]. change (bp (-1074)) with (/ IZR (2 ^ 1074)). change (powerRZ 10 (-400)) with (/ 10 ^ 400). rewrite (pow_IZR 10 400). apply Rinv_le_contravar; [apply IZR_lt; reflexivity|apply IZR_le; apply Z.leb_le; vm_compute; reflexivity].
  - pose proof (abs_B2R_lt_emax 53 1024 (B754_finite s m e H)) as L. apply Rlt_le. eapply Rlt_le_trans; [exact L|]. change (bp 1024) with (IZR (2 ^ 1024)). change (powerRZ 10 400) with (10 ^ 400). rewrite (pow_IZR 10 400). apply IZR_le. apply Z.leb_le. vm_compute. reflexivity.
Qed.
Lemma fin_ranges l : Forall fin l -> Forall double_range (map B2R l).
Proof. intro F. apply Forall_map. eapply Forall_impl; [|exact F]. apply fin_range. Qed.

(** ** Comparisons *)
Lemma feq_R x y : fin x -> fin y -> Beqb x y = Reqb (B2R x) (B2R y).
Proof. intros Fx Fy. rewrite (Beqb_correct 53 1024 x y Fx Fy). destruct (Reqb_spec (B2R x) (B2R y)) as [E|E]; [now apply Req_bool_true|now apply Req_bool_false]. Qed.
Lemma flt_R x y : fin x -> fin y -> Bltb x y = Rltb (B2R x) (B2R y).
Proof. intros Fx Fy. rewrite (Bltb_correct 53 1024 x y Fx Fy). destruct (Rltb_spec (B2R x) (B2R y)) as [E|E]; [now apply Rlt_bool_true|apply Rlt_bool_false; lra]. Qed.
Lemma insert_R x l : fin x -> Forall fin l -> map B2R (insert_unique64 x l) = insert_unique (B2R x) (map B2R l) /\ Forall fin (insert_unique64 x l).
Proof.
  intros Fx F. induction F as [|y l Fy F [IH IF]]; [split; [reflexivity|repeat constructor; exact Fx]|]. cbn [insert_unique64 insert_unique map]. rewrite flt_R, feq_R by assumption.
  destruct (Rltb (B2R x) (B2R y)); [split; [reflexivity|constructor; [exact Fx|now constructor]]|]. destruct (Reqb (B2R x) (B2R y)); [split; [reflexivity|now constructor]|].
  split; [cbn [map]; now rewrite IH|now constructor].
Qed.
Lemma unique_R l : Forall fin l -> map B2R (np_unique64 l) = np_unique (map B2R l) /\ Forall fin (np_unique64 l).
Proof.
  induction 1 as [|x l Fx F [E G]]; [split; [reflexivity|constructor]|]. change (np_unique64 (x :: l)) with (insert_unique64 x (np_unique64 l)). change (np_unique (map B2R (x :: l))) with (insert_unique (B2R x) (np_unique (map B2R l))).
  rewrite <- E. now apply insert_R.
Qed.
Lemma changes_R l : forall i, Forall fin l -> changes_from64 i l = changes_from i (map B2R l).
Proof.
  induction l as [|a [|b l] IH]; intros i F; [reflexivity|reflexivity|]. pose proof (Forall_inv F) as Fa. pose proof (Forall_inv_tail F) as Ft. pose proof (Forall_inv Ft) as Fb.
  change (changes_from64 i (a :: b :: l)) with (if Beqb b a then changes_from64 (S i) (b :: l) else i :: changes_from64 (S i) (b :: l)).
  change (changes_from i (map B2R (a :: b :: l))) with (if Reqb (B2R b) (B2R a) then changes_from (S i) (map B2R (b :: l)) else i :: changes_from (S i) (map B2R (b :: l))).
  rewrite feq_R by assumption. now rewrite (IH (S i) Ft).
Qed.
Lemma z_ints_R l : Forall fin l -> z_ints64 l = z_ints (map B2R l).
Proof. intro F. unfold z_ints64, z_ints. now rewrite changes_R, map_length by exact F. Qed.

(** ** Boundaries *)
Lemma small_sum x y : Rabs x <= bp 200 -> Rabs y <= bp 200 -> Rabs (rnd (x + y)) < bp 1024.
Proof.
  intros A B. eapply Rle_lt_trans; [apply rnd_le_2|]. pose proof (Rabs_triang x y). assert (bp 202 = 4 * bp 200) by (change 4 with (bp 2); rewrite <- bpow_plus; reflexivity).
  assert (bp 202 < bp 1024) by (apply bpow_lt; lia). lra.
Qed.
Lemma neq0_round (x y : f64) : B2R x + B2R y <> 0 -> rnd (B2R x + B2R y) <> 0.
Proof. intro N. apply round_plus_neq_0; try exact N; try apply B2R_fmt; typeclasses eauto. Qed.
Lemma fsub_plain (x d : f64) : fin x -> fin d -> 0 < B2R d -> Rabs (B2R x) <= bp 200 -> B2R d <= bp 200 ->
  plain64 (fsub x d) /\ B2R (fsub x d) = rnd (B2R x - B2R d).
Proof.
  intros Fx Fd P Lx Ld. assert (L : Rabs (rnd (B2R x - B2R d)) < bp 1024) by (apply (small_sum (B2R x) (- B2R d)); [exact Lx|rewrite Rabs_Ropp, Rabs_right; lra]).
  pose proof (Bminus_correct 53 1024 Hprec64 Hmax64 mode_NE x d Fx Fd) as H. rewrite fexp64 in H. change (round_mode mode_NE) with ZnearestE in H. rewrite Rlt_bool_true in H by exact L.
  destruct H as (V & F & S). split; [|exact V]. split; [exact F|]. intro Z. fold (fsub x d) in *. rewrite V in Z. rewrite S.
  assert (E : B2R x - B2R d = 0). { destruct (Req_dec (B2R x - B2R d) 0) as [E|N]; [exact E|]. exfalso. revert Z. change (B2R x - B2R d) with (B2R x + - B2R d) in *. rewrite <- (B2R_Bopp 53 1024 d) in *. now apply neq0_round. }
  rewrite Rcompare_Eq by exact E. destruct x as [s|s| |s m e Hb]; try discriminate Fx; cbn [B2R] in E; [lra|]. destruct s; [|reflexivity]. exfalso. pose proof (F2R_lt_0 radix2 (Float radix2 (cond_Zopp true (Z.pos m)) e) ltac:(cbn; lia)). cbn [B2R] in *. lra.
Qed.
Lemma pos_sign (x : f64) : 0 < B2R x -> Bsign x = false.
Proof. intro P. destruct x as [s|s| |s m e Hb]; cbn [B2R] in P; try lra. destruct s; [|reflexivity]. pose proof (F2R_lt_0 radix2 (Float radix2 (cond_Zopp true (Z.pos m)) e) ltac:(cbn; lia)). lra. Qed.
Lemma fadd_plain (x d : f64) : fin x -> fin d -> 0 < B2R d -> Rabs (B2R x) <= bp 200 -> B2R d <= bp 200 ->
  plain64 (fadd x d) /\ B2R (fadd x d) = rnd (B2R x + B2R d).
Proof.
  intros Fx Fd P Lx Ld. assert (L : Rabs (rnd (B2R x + B2R d)) < bp 1024) by (apply small_sum; [exact Lx|rewrite Rabs_right; lra]).
  pose proof (Bplus_correct 53 1024 Hprec64 Hmax64 mode_NE x d Fx Fd) as H. rewrite fexp64 in H. change (round_mode mode_NE) with ZnearestE in H. rewrite Rlt_bool_true in H by exact L.
  destruct H as (V & F & S). split; [|exact V]. split; [exact F|]. intro Z. fold (fadd x d) in *. rewrite V in Z. rewrite S.
  assert (E : B2R x + B2R d = 0) by (destruct (Req_dec (B2R x + B2R d) 0) as [E|N]; [exact E|exfalso; now apply neq0_round in N]).
  rewrite Rcompare_Eq by exact E. rewrite (pos_sign d P). now rewrite andb_false_r.
Qed.
(** Sums of unsigned numbers are not negative zero. *)
Lemma unsigned_nn x : unsigned x -> fin_nn x.
Proof. intros [F S]. split; [exact F|]. destruct x as [s|s| |s m e Hb]; try discriminate F; cbn in S; subst s; cbn [B2R]; [lra|]. apply F2R_ge_0. cbn. lia. Qed.
Lemma unsigned_plain x : unsigned x -> plain64 x.
Proof. intros [F S]. split; [exact F|auto]. Qed.
Lemma nn_plain x : fin_nn x -> (B2R x = 0 -> Bsign x = false) -> unsigned x.
Proof. intros [F P] Z. split; [exact F|]. destruct P as [P|P]; [now apply pos_sign|apply Z; now symmetry]. Qed.
Lemma fadd_unsigned x y : fin_nn x -> fin_nn y -> fin (fadd x y) -> Bsign x = false \/ Bsign y = false -> unsigned (fadd x y).
Proof.
  intros [Fx Px] [Fy Py] F S. split; [exact F|]. pose proof (Bplus_correct 53 1024 Hprec64 Hmax64 mode_NE x y Fx Fy) as H. rewrite fexp64 in H. change (round_mode mode_NE) with ZnearestE in H.
  destruct (fadd_cases x y Fx Fy) as [(L & _ & _)|(_ & E & _)]; [|rewrite E in F; discriminate F].
  rewrite Rlt_bool_true in H by exact L. destruct H as (_ & _ & H). fold (fadd x y) in H. rewrite H. destruct (Rcompare_spec (B2R x + B2R y) 0) as [C|C|C]; [lra| |reflexivity].
  destruct S as [-> | ->]; [reflexivity|apply andb_false_r].
Qed.
Lemma sums_unsigned l x : sums l x -> Forall unsigned l -> exact_sum l * wp (length l) <= bp 1023 -> l <> [] -> unsigned x.
Proof.
  intros S F L N. enough (G : forall l x, sums l x -> Forall unsigned l -> exact_sum l * wp (length l) <= bp 1023 -> fin_nn x /\ (l <> [] -> unsigned x)) by (now apply (G l x)). clear l x S F L N.
  intros l x S F L. assert (Fn : Forall fin_nn l) by (eapply Forall_impl; [|exact F]; apply unsigned_nn). split; [now apply (sums_close l x)|]. revert F L Fn. induction S as [z F Z|x|l l1 l2 a b P S1 IH1 S2 IH2]; intros Fl L Fn N.
  - congruence.
  - exact (Forall_inv Fl).
  - pose proof (Permutation_Forall P Fl) as F12. apply Forall_app in F12. destruct F12 as [U1 U2]. pose proof (Permutation_Forall P Fn) as F12. apply Forall_app in F12. destruct F12 as [F1 F2].
    pose proof (proj1 (sums_close _ _ (sums_add _ _ _ _ _ P S1 S2) Fn L)) as [Ff _].
    rewrite (exact_sum_perm _ _ P), exact_sum_app in L. rewrite (Permutation_length P), app_length in L.
    pose proof (exact_sum_nonneg l1 F1) as N1. pose proof (exact_sum_nonneg l2 F2) as N2. pose proof (wp_1 (length l1)) as W1. pose proof (wp_1 (length l2)) as W2. rewrite wp_add in L.
    assert (L1 : exact_sum l1 * wp (length l1) <= bp 1023).
    { eapply Rle_trans; [|exact L]. rewrite <- Rmult_assoc. apply Rle_trans with (exact_sum l1 * wp (length l1) * 1); [lra|]. apply Rmult_le_compat; try lra; [apply Rmult_le_pos; lra|]. apply Rmult_le_compat_r; lra. }
    assert (L2 : exact_sum l2 * wp (length l2) <= bp 1023).
    { eapply Rle_trans; [|exact L]. rewrite (Rmult_comm (wp (length l1))), <- Rmult_assoc. apply Rle_trans with (exact_sum l2 * wp (length l2) * 1); [lra|]. apply Rmult_le_compat; try lra; [apply Rmult_le_pos; lra|]. apply Rmult_le_compat_r; lra. }
    apply fadd_unsigned; [now apply (sums_close l1 a)|now apply (sums_close l2 b)|exact Ff|].
    destruct l1 as [|p1 l1]; [|left; now apply IH1]. destruct l2 as [|p2 l2]; [|right; now apply IH2].
    exfalso. apply N. apply Permutation_nil. symmetry. exact P.
Qed.

(** ** The columns *)
(** One column. *)
Definition bounds_of (dz : f64) (zs : list f64) : list f64 := map (fun x => fsub x dz) zs ++ [fadd (last zs f0) dz].
Fixpoint cards_of (dz : f64) (n : nat) (parts : list (list f64 * list f64)) : list (list item) :=
  match parts with
  | [] => []
  | (zs, ss) :: parts' =>
      ([Key "SI" n; Word "H"]%string ++ map Num (map B2R (bounds_of dz zs))) ::
      ([Key "SP" n; Word "D"; Num 0]%string ++ map Num (map B2R ss)) :: cards_of dz (S n) parts'
  end.
Lemma join_last (l : list text) e : l <> [] -> join [space] l ++ txt " " ++ e = join [space] (l ++ [e]).
Proof.
  induction l as [|w ws IH]; intro N; [congruence|].
  destruct ws as [|w' ws]; [reflexivity|]. specialize (IH ltac:(discriminate)). rewrite join_cons by discriminate.
  change ((w :: w' :: ws) ++ [e]) with (w :: (w' :: ws) ++ [e]). rewrite (join_cons w ((w' :: ws) ++ [e])) by discriminate. rewrite <- IH, <- !app_assoc. reflexivity.
Qed.
Lemma vertical_reads64 dz z r_data i n ab zs ss : n = (i + 5)%nat -> column z ab = zs -> column r_data ab = ss ->
  nth_error z (Z.to_nat (snd ab)) = Some (last zs f0) -> zs <> [] -> ss <> [] ->
  (Z.of_nat n < 10 ^ 70)%Z -> Forall plain64 (bounds_of dz zs) -> Forall plain64 ss ->
  exists a b, vertical_cards64 z dz r_data i ab = Ok (a, b) /\
    reads (a ++ b) [map item_word ([Key "SI" n; Word "H"]%string ++ map Num (map B2R (bounds_of dz zs))); map item_word ([Key "SP" n; Word "D"; Num 0]%string ++ map Num (map B2R ss))].
Proof.
  intros -> Ez Es El Nz Ns R Rz Rs. unfold vertical_cards64. rewrite Ez, Es, El. cbn [bind].
  destruct (show_nat_chars (i + 5)) as [_ Nn]. assert (In : (6 <= length (show_nat (i + 5)) + 5)%nat) by (destruct (show_nat (i + 5)); [congruence|cbn; lia]).
  assert (Dz : Forall double_range (map B2R (bounds_of dz zs))) by (apply fin_ranges; eapply Forall_impl; [|exact Rz]; now intros a [H _]).
  assert (Ds : Forall double_range (map B2R ss)) by (apply fin_ranges; eapply Forall_impl; [|exact Rs]; now intros a [H _]).
  assert (Eb : numbers64 (map (fun zi => fsub zi dz) zs) ++ txt " " ++ show64 5 (fadd (last zs f0) dz) = join [space] (map item_word (map Num (map B2R (bounds_of dz zs))))).
  { rewrite <- numbers_items, <- numbers64_plain by exact Rz. unfold numbers64, bounds_of. rewrite map_app. cbn [map]. apply join_last. destruct zs; [congruence|discriminate]. }
  assert (Nb : map Num (map B2R (bounds_of dz zs)) <> []) by (unfold bounds_of; destruct zs; discriminate).
  assert (T1 : txt "SI" ++ show_nat (i + 5) ++ txt " H " ++ numbers64 (map (fun zi => fsub zi dz) zs) ++ txt " " ++ show64 5 (fadd (last zs f0) dz)
    = join [space] (map item_word ([Key "SI" (i + 5); Word "H"]%string ++ map Num (map B2R (bounds_of dz zs))))).
  { rewrite Eb. change (txt " H ") with ([space] ++ txt "H "). rewrite <- app_assoc.
    rewrite (join_items_head (Word "H")) by (exact Nb || reflexivity). cbn [app].
    assert (NH : Word "H" :: map Num (map B2R (bounds_of dz zs)) <> []) by discriminate. rewrite <- (join_items_head (Key "SI" (i + 5)) _ _ NH eq_refl).
    rewrite <- key_text. now rewrite <- !app_assoc. }
  rewrite T1. destruct (wrap_items ([Key "SI" (i + 5); Word "H"]%string ++ map Num (map B2R (bounds_of dz zs))) _ _ _ (length (show_nat (i + 5)) + 5) eq_refl) as (a & Ea & Ra).
  { constructor; [apply key_good; [now left|exact R]|]. constructor; [now apply word_good|]. now apply nums_good. }
  { apply key_not_c; now left. } { apply key_not_c; now left. } { exact In. }
  rewrite Ea. cbn [bind].
  assert (Ns' : map B2R ss <> []) by (destruct ss; [congruence|discriminate]).
  assert (T2 : txt "SP" ++ show_nat (i + 5) ++ txt " D " ++ fmt_e 5 0 ++ txt " " ++ numbers64 ss = join [space] (map item_word ([Key "SP" (i + 5); Word "D"; Num 0]%string ++ map Num (map B2R ss)))).
  { rewrite numbers64_plain by exact Rs. change (txt " D ") with ([space] ++ txt "D "). rewrite <- app_assoc.
    assert (K : item_word (Key "SP" (i + 5)) <> []) by discriminate.
    pose proof (spD_text (item_word (Key "SP" (i + 5))) (item_word (Key "SP" (i + 5)) ++ [space]) (map B2R ss) Ns' K eq_refl) as H. cbn [map app]. cbn [map app] in H. rewrite <- H.
    rewrite <- key_text. now rewrite <- !app_assoc. }
  rewrite T2. destruct (wrap_items ([Key "SP" (i + 5); Word "D"; Num 0]%string ++ map Num (map B2R ss)) _ _ _ (length (show_nat (i + 5)) + 5) eq_refl) as (b & Eb' & Rb).
  { constructor; [apply key_good; [now right|exact R]|]. constructor; [now apply word_good|]. constructor; [apply num_good, zero_range|]. now apply nums_good. }
  { apply key_not_c; now right. } { apply key_not_c; now right. } { exact In. }
  rewrite Eb'. cbn [bind]. exists a, b. split; [reflexivity|].
  match goal with |- reads _ [?x; ?y] => change [x; y] with ([x] ++ [y]) end. now apply reads_app.
Qed.
Lemma vertical_all64 dz parts : forall (pz ps : list f64) i, length pz = length ps ->
  Forall (fun p => fst p <> [] /\ length (snd p) = length (fst p) /\ Forall plain64 (bounds_of dz (fst p)) /\ Forall plain64 (snd p)) parts ->
  (Z.of_nat (i + 5 + length parts) < 10 ^ 70)%Z ->
  exists out, vertical_dist_cards64 (pz ++ concat (map fst parts)) dz (ps ++ concat (map snd parts)) i (segs (length pz) (map (fun p => length (fst p)) parts)) = Ok out /\
    reads (concat (map (fun c => fst c ++ snd c) out)) (map (map item_word) (cards_of dz (i + 5) parts)).
Proof.
  induction parts as [|[zs ss] parts IH]; intros pz ps i L G R; [exists []; split; [reflexivity|apply reads_nil]|].
  destruct (Forall_inv G) as (Nz & Ls & Bz & Bs). pose proof (Forall_inv_tail G) as Gt. cbn [fst snd length] in *.
  assert (Ns : ss <> []) by (intros ->; destruct zs; [congruence|discriminate]).
  cbn [map concat segs cards_of vertical_dist_cards64 fst snd].
  destruct (vertical_reads64 dz (pz ++ zs ++ concat (map fst parts)) (ps ++ ss ++ concat (map snd parts)) i (i + 5) ((Z.of_nat (length pz) - 1)%Z, (Z.of_nat (length pz + length zs) - 1)%Z) zs ss) as (a & b & E & Ra); try assumption; try reflexivity.
  - now apply column_mid.
  - rewrite <- Ls. now apply column_mid.
  - cbn [snd]. replace (Z.to_nat (Z.of_nat (length pz + length zs) - 1)) with (length pz + length zs - 1)%nat; [now apply nth_last|]. destruct zs; [congruence|]. cbn [length]. lia.
  - lia.
  - rewrite E. cbn [bind]. destruct (IH (pz ++ zs) (ps ++ ss) (S i)) as (out & Eo & Ro).
    + rewrite !app_length. lia.
    + exact Gt.
    + lia.
    + rewrite <- !app_assoc in Eo. rewrite app_length in Eo. rewrite Eo. cbn [bind]. eexists. split; [reflexivity|]. cbn [map concat fst snd].
      change (map item_word ?x :: map item_word ?y :: ?r) with ([map item_word x; map item_word y] ++ r). apply reads_app; [exact Ra|exact Ro].
Qed.
