(** Lemmas about number formatting. *)
From Coq Require Import Ascii String List Bool Arith ZArith Lia.
From Verif Require Import Base TextWrap SpecText TextProofs Format SpecFormat.

(** ** Digits *)
Lemma digit_cases (P : Z -> Prop) d : P 0%Z -> P 1%Z -> P 2%Z -> P 3%Z -> P 4%Z -> P 5%Z -> P 6%Z -> P 7%Z -> P 8%Z -> P 9%Z -> (0 <= d < 10)%Z -> P d.
Proof.
  intros. assert (d = 0 \/ d = 1 \/ d = 2 \/ d = 3 \/ d = 4 \/ d = 5 \/ d = 6 \/ d = 7 \/ d = 8 \/ d = 9)%Z by lia. intuition; subst; assumption.
Qed.
Lemma digit_of_digit d : (0 <= d < 10)%Z -> digit_of (digit d) = Some d.
Proof. intro H. apply (digit_cases (fun d => digit_of (digit d) = Some d) d); try exact H; reflexivity. Qed.
Definition digit_char (c : ascii) : Prop := (48 <= nat_of_ascii c <= 57)%nat.
Lemma digit_is_digit d : (0 <= d < 10)%Z -> digit_char (digit d).
Proof. intro H. apply (digit_cases (fun d => digit_char (digit d)) d); try exact H; cbv; lia. Qed.

Lemma last_digits_length k n : length (last_digits k n) = k.
Proof. revert n; induction k as [|k IH]; intro n; cbn; [reflexivity|]. rewrite app_length, IH. cbn. lia. Qed.
Lemma last_digits_digits k n : Forall digit_char (last_digits k n).
Proof.
  revert n; induction k as [|k IH]; intro n; cbn; [constructor|]. apply Forall_app. split; [apply IH|]. constructor; [|constructor].
  apply digit_is_digit, Z.mod_pos_bound. lia.
Qed.
Lemma read_last k : forall n acc j t, read_digits acc j (last_digits k n ++ t) = read_digits (acc * 10 ^ Z.of_nat k + n mod 10 ^ Z.of_nat k) (j + k) t.
Proof.
  induction k as [|k IH]; intros n acc j t.
  - cbn [last_digits app]. change (10 ^ Z.of_nat 0)%Z with 1%Z. rewrite Z.mod_1_r, Nat.add_0_r. f_equal. lia.
  - cbn [last_digits]. rewrite <- app_assoc, IH. cbn [app read_digits]. rewrite digit_of_digit by (apply Z.mod_pos_bound; lia).
    f_equal; [|lia]. rewrite Nat2Z.inj_succ, Z.pow_succ_r by lia. rewrite Z.rem_mul_r by lia. lia.
Qed.
Lemma show_fuel_digits f n : (0 <= n)%Z -> Forall digit_char (show_fuel f n).
Proof.
  revert n; induction f as [|f IH]; intros n H; cbn; [constructor|]. destruct (Z.ltb_spec n 10).
  - constructor; [apply digit_is_digit; lia|constructor].
  - apply Forall_app. split; [apply IH, Z.div_pos; lia|]. constructor; [apply digit_is_digit, Z.mod_pos_bound; lia|constructor].
Qed.
Lemma read_show f : forall n acc j t, (0 <= n < 2 ^ Z.of_nat f)%Z -> (0 < f)%nat ->
  exists k, (0 < k)%nat /\ length (show_fuel f n) = k /\ read_digits acc j (show_fuel f n ++ t) = read_digits (acc * 10 ^ Z.of_nat k + n) (j + k) t.
Proof.
  induction f as [|f IH]; intros n acc j t H F; [lia|]. cbn [show_fuel]. destruct (Z.ltb_spec n 10).
  - exists 1%nat. split; [lia|]. split; [reflexivity|]. cbn [app read_digits]. rewrite digit_of_digit by lia. change (10 ^ Z.of_nat 1)%Z with 10%Z. f_equal. lia.
  - assert (Hf : (0 < f)%nat). { destruct f; [|lia]. change (2 ^ Z.of_nat 1)%Z with 2%Z in H. lia. }
    assert (Hd : (0 <= n / 10 < 2 ^ Z.of_nat f)%Z).
    { split; [apply Z.div_pos; lia|]. apply Z.div_lt_upper_bound; [lia|]. rewrite Nat2Z.inj_succ, Z.pow_succ_r in H by lia. lia. }
    destruct (IH (n / 10)%Z acc j (digit (n mod 10) :: t) Hd Hf) as (k & Hk & Hl & E). exists (S k). split; [lia|]. split; [rewrite app_length, Hl; cbn; lia|].
    rewrite <- app_assoc. cbn [app]. rewrite E. cbn [read_digits]. rewrite digit_of_digit by (apply Z.mod_pos_bound; lia). f_equal; [|lia].
    rewrite Nat2Z.inj_succ, Z.pow_succ_r by lia. pose proof (Z.div_mod n 10). lia.
Qed.
Lemma log2_fuel n : (0 <= n)%Z -> (n < 2 ^ Z.of_nat (S (Z.to_nat (Z.log2 n))))%Z.
Proof.
  intro H. rewrite Nat2Z.inj_succ, Z2Nat.id by apply Z.log2_nonneg. destruct (Z.eq_dec n 0) as [-> |N]; [cbn; lia|]. apply Z.log2_spec. lia.
Qed.
Lemma read_show_Z n acc j t : (0 <= n)%Z ->
  exists k, (0 < k)%nat /\ length (show_Z n) = k /\ read_digits acc j (show_Z n ++ t) = read_digits (acc * 10 ^ Z.of_nat k + n) (j + k) t.
Proof. intro H. apply read_show; [split; [exact H|now apply log2_fuel]|lia]. Qed.
Lemma show_fuel_length f : forall n k, (0 <= n < 10 ^ Z.of_nat (S k))%Z -> (length (show_fuel f n) <= S k)%nat.
Proof.
  induction f as [|f IH]; intros n k H; cbn; [lia|]. destruct (Z.ltb_spec n 10); [cbn; lia|]. rewrite app_length. cbn [length].
  destruct k as [|k]; [change (10 ^ Z.of_nat 1)%Z with 10%Z in H; lia|]. enough (length (show_fuel f (n / 10)) <= S k)%nat by lia. apply IH.
  split; [apply Z.div_pos; lia|]. apply Z.div_lt_upper_bound; [lia|]. rewrite (Nat2Z.inj_succ (S k)), Z.pow_succ_r in H by lia. exact (proj2 H).
Qed.
Lemma show_nat_reads n : read_number (show_nat n) = Some (INR n).
Proof.
  unfold show_nat. destruct (read_show_Z (Z.of_nat n) 0 0 [] ltac:(lia)) as (k & Hk & Hl & E). rewrite app_nil_r in E. cbn [read_digits] in E.
  assert (D := show_fuel_digits (S (Z.to_nat (Z.log2 (Z.of_nat n)))) (Z.of_nat n) ltac:(lia)). fold (show_Z (Z.of_nat n)) in D.
  unfold read_number. assert (S0 : read_sign (show_Z (Z.of_nat n)) = (1%Z, show_Z (Z.of_nat n))).
  { destruct (show_Z (Z.of_nat n)) as [|c t]; [reflexivity|]. pose proof (Forall_inv D) as Dc. unfold digit_char in Dc. cbn [read_sign].
    destruct (Ascii.eqb_spec c "-"); [subst c; cbn in Dc; lia|]. destruct (Ascii.eqb_spec c "+"); [subst c; cbn in Dc; lia|reflexivity]. }
  rewrite S0, E. cbn [fst snd]. destruct (Nat.eqb_spec (0 + k + 0) 0); [lia|]. f_equal. rewrite Z.mul_0_l, Z.add_0_l, <- INR_IZR_INZ. cbn. lra.
Qed.

(** ** Characters *)
Definition num_char (c : ascii) : Prop := digit_char c \/ c = "."%char \/ c = "e"%char \/ c = "-"%char \/ c = "+"%char.
Lemma num_char_plain c : num_char c -> plain c.
Proof.
  intros [H|[->|[->|[->| ->]]]]; try (split; [cbv; lia|discriminate]). unfold digit_char in H. split; [lia|]. intros ->. cbn in H. lia.
Qed.
Lemma digits_no_break l : Forall digit_char l -> forall t, minus_signs t -> minus_signs (l ++ t).
Proof.
  induction 1 as [|c l H _ IH]; intros t Ht; [exact Ht|]. cbn. split; [|apply IH, Ht]. intros ->. unfold digit_char in H. cbn in H. lia.
Qed.
Lemma exponent_digits e : Forall digit_char (if (Z.abs e <? 100)%Z then last_digits 2 (Z.abs e) else show_Z (Z.abs e)).
Proof. destruct (Z.abs e <? 100)%Z; [apply last_digits_digits|]. apply show_fuel_digits. lia. Qed.
Lemma exponent_reads e : exists k, (0 < k)%nat /\ read_digits 0 0 (if (Z.abs e <? 100)%Z then last_digits 2 (Z.abs e) else show_Z (Z.abs e)) = (Z.abs e, k, []).
Proof.
  destruct (Z.ltb_spec (Z.abs e) 100).
  - exists 2%nat. split; [lia|]. rewrite <- (app_nil_r (last_digits 2 (Z.abs e))), read_last. cbn [read_digits]. f_equal. f_equal.
    rewrite Z.mul_0_l, Z.add_0_l. apply Z.mod_small. change (10 ^ Z.of_nat 2)%Z with 100%Z. lia.
  - destruct (read_show_Z (Z.abs e) 0 0 [] ltac:(lia)) as (k & Hk & _ & E). exists k. split; [exact Hk|]. rewrite app_nil_r in E. rewrite E. cbn [read_digits]. reflexivity.
Qed.
Lemma digits_head_no_break l : Forall digit_char l -> minus_signs l.
Proof. intro H. rewrite <- (app_nil_r l). apply digits_no_break; [exact H|exact I]. Qed.

Lemma body_facts p d e : (0 <= d / 10 ^ Z.of_nat p < 10)%Z ->
  let t := [digit (d / 10 ^ Z.of_nat p)] ++ txt "." ++ last_digits p d ++ show_exponent e in
  Forall num_char t /\ minus_signs t /\ (exists c r, t = c :: r /\ digit_char c) /\
  (forall s, exists k, (0 < k)%nat /\
     read_number (match s with true => txt "-" | false => [] end ++ t) =
     Some ((if s then -1 else 1) * (IZR (d / 10 ^ Z.of_nat p) + IZR (d mod 10 ^ Z.of_nat p) / 10 ^ p) * powerRZ 10 e)).
Proof.
  intros Hd t. assert (Dh := digit_is_digit _ Hd). set (h := digit (d / 10 ^ Z.of_nat p)) in *.
  set (ex := if (Z.abs e <? 100)%Z then last_digits 2 (Z.abs e) else show_Z (Z.abs e)) in *.
  assert (De : Forall digit_char ex) by apply exponent_digits.
  assert (Et : t = h :: "."%char :: last_digits p d ++ "e"%char :: (if (e <? 0)%Z then "-"%char else "+"%char) :: ex).
  { unfold t, show_exponent. fold ex. cbn [app txt list_ascii_of_string]. destruct (e <? 0)%Z; reflexivity. }
  destruct (exponent_reads e) as (k & Hk & E). change (read_digits 0 0 ex = (Z.abs e, k, [])) in E. clearbody ex t.
  assert (Ne : exists c r, ex = c :: r).
  { destruct ex as [|c r]; [inversion E; lia|eauto]. }
  split; [|split; [|split]].
  - rewrite Et. constructor; [now left|]. constructor; [right; now left|]. apply Forall_app. split; [eapply Forall_impl; [|apply last_digits_digits]; intros c Hc; now left|].
    constructor; [right; right; now left|]. constructor; [destruct (e <? 0)%Z; unfold num_char; auto|]. eapply Forall_impl; [|exact De]; intros c Hc; now left.
  - rewrite Et. change (h :: "."%char :: last_digits p d ++ "e"%char :: (if (e <? 0)%Z then "-"%char else "+"%char) :: ex)
      with ([h] ++ "."%char :: last_digits p d ++ "e"%char :: (if (e <? 0)%Z then "-"%char else "+"%char) :: ex).
    apply digits_no_break; [constructor; [exact Dh|constructor]|]. cbn [minus_signs]. split; [discriminate|]. apply digits_no_break; [apply last_digits_digits|].
    cbn [minus_signs]. split; [discriminate|]. split; [|now apply digits_head_no_break]. intros _. destruct Ne as (c & r & Ex). rewrite Ex in *. exact (Forall_inv De).
  - rewrite Et. eauto.
  - intro s. exists k. split; [exact Hk|].
    assert (Rs : read_sign (match s with true => txt "-" | false => [] end ++ t) = (if s then -1 else 1, t)%Z).
    { destruct s; [reflexivity|]. rewrite Et. cbn [app read_sign]. unfold digit_char in Dh.
      destruct (Ascii.eqb_spec h "-") as [Q|_]; [rewrite Q in Dh; cbn in Dh; lia|]. destruct (Ascii.eqb_spec h "+") as [Q|_]; [rewrite Q in Dh; cbn in Dh; lia|reflexivity]. }
    unfold read_number. rewrite Rs, Et. cbn [read_digits]. unfold h at 1. rewrite digit_of_digit by exact Hd.
    change (digit_of ".") with (@None Z). cbv iota. change (Ascii.eqb "." ".") with true. cbv iota. rewrite read_last.
    cbn [read_digits]. change (digit_of "e") with (@None Z). cbv iota beta. cbn [Nat.add Nat.eqb]. change (Ascii.eqb "e" "e") with true. cbn [orb].
    assert (Rx : read_sign ((if (e <? 0)%Z then "-"%char else "+"%char) :: ex) = (if (e <? 0)%Z then -1 else 1, ex)%Z) by (destruct (e <? 0)%Z; reflexivity).
    rewrite Rx, E. destruct k as [|k]; [lia|]. f_equal. rewrite !Z.mul_0_l, !Z.add_0_l.
    assert (((if (e <? 0)%Z then -1 else 1) * Z.abs e)%Z = e) as -> by (destruct (Z.ltb_spec e 0); lia). destruct s; reflexivity.
Qed.

(** ** Rounding *)
Lemma Int_part_bounds y : IZR (Int_part y) <= y < IZR (Int_part y) + 1.
Proof. pose proof (base_Int_part y). lra. Qed.
Lemma Int_part_unique y z : IZR z <= y < IZR z + 1 -> Int_part y = z.
Proof.
  intro H. pose proof (Int_part_bounds y) as B. assert (IZR (Int_part y) < IZR (z + 1)) as H1 by (rewrite plus_IZR; lra). assert (IZR z < IZR (Int_part y + 1)) as H2 by (rewrite plus_IZR; lra).
  apply lt_IZR in H1, H2. lia.
Qed.
Lemma round_even_error y : Rabs (IZR (round_even y) - y) <= 1 / 2.
Proof.
  unfold round_even. pose proof (Int_part_bounds y) as B. destruct (Rltb_spec (y - IZR (Int_part y)) (1 / 2)); [rewrite Rabs_left1; lra|].
  destruct (Rltb_spec (1 / 2) (y - IZR (Int_part y))); [rewrite plus_IZR, Rabs_pos_eq; lra|].
  destruct (Z.even _); [rewrite Rabs_left1; lra|rewrite plus_IZR, Rabs_pos_eq; lra].
Qed.
Lemma Rabs_le_both a b : Rabs a <= b -> - b <= a <= b.
Proof. unfold Rabs. destruct (Rcase_abs a); lra. Qed.
Lemma round_even_mono x y : x <= y -> (round_even x <= round_even y)%Z.
Proof.
  intro H. destruct (Z.le_gt_cases (round_even x) (round_even y)) as [L|G]; [exact L|].
  assert (IZR (round_even y) + 1 <= IZR (round_even x)) by (rewrite <- plus_IZR; apply IZR_le; lia).
  pose proof (round_even_error x) as Ex. pose proof (round_even_error y) as Ey. apply Rabs_le_both in Ex, Ey. assert (x = y) as -> by lra. lia.
Qed.
Lemma round_even_IZR n : round_even (IZR n) = n.
Proof.
  unfold round_even. rewrite (Int_part_unique (IZR n) n) by lra. replace (IZR n - IZR n) with 0 by ring. destruct (Rltb_spec 0 (1 / 2)); [reflexivity|lra].
Qed.

Lemma pow10_pos z : 0 < powerRZ 10 z.
Proof. apply powerRZ_lt. lra. Qed.
Lemma pow10_add a b : powerRZ 10 (a + b) = powerRZ 10 a * powerRZ 10 b.
Proof. apply powerRZ_add. lra. Qed.
Lemma pow10_le a b : (a <= b)%Z -> powerRZ 10 a <= powerRZ 10 b.
Proof.
  intro H. rewrite !powerRZ_Rpower by lra. apply Rle_Rpower; [lra|]. now apply IZR_le.
Qed.
Lemma pow10_lt a b : (a < b)%Z -> powerRZ 10 a < powerRZ 10 b.
Proof. intro H. rewrite !powerRZ_Rpower by lra. apply Rpower_lt; [lra|]. now apply IZR_lt. Qed.
Lemma pow10_nat n : powerRZ 10 (Z.of_nat n) = IZR (10 ^ Z.of_nat n).
Proof. rewrite <- pow_powerRZ, pow_IZR. reflexivity. Qed.
Lemma exponent10_spec m : 0 < m -> powerRZ 10 (exponent10 m) <= m < powerRZ 10 (exponent10 m + 1).
Proof.
  intro H. unfold exponent10. pose proof (Int_part_bounds (ln m / ln 10)) as [B1 B2]. set (e := Int_part (ln m / ln 10)) in *.
  assert (L : 0 < ln 10) by (rewrite <- ln_1; apply ln_increasing; lra).
  assert (D : ln m / ln 10 * ln 10 = ln m) by (field; lra).
  rewrite !powerRZ_Rpower by lra. unfold Rpower. clearbody e. assert (Em := exp_ln m H). rewrite <- Em. clear Em. split.
  - assert (Q : IZR e * ln 10 <= ln m) by (rewrite <- D; apply Rmult_le_compat_r; lra). destruct Q as [Q|Q]; [left; now apply exp_increasing|right; now rewrite Q].
  - apply exp_increasing. rewrite plus_IZR. rewrite <- D. apply Rmult_lt_compat_r; lra.
Qed.
Lemma exponent10_unique m e : powerRZ 10 e <= m < powerRZ 10 (e + 1) -> exponent10 m = e.
Proof.
  intros [H1 H2]. pose proof (pow10_pos e). destruct (exponent10_spec m ltac:(lra)) as [B1 B2].
  destruct (Z.lt_trichotomy (exponent10 m) e) as [L|[E|G]]; [exfalso|exact E|exfalso].
  - pose proof (pow10_le (exponent10 m + 1) e ltac:(lia)). lra.
  - pose proof (pow10_le (e + 1) (exponent10 m) ltac:(lia)). lra.
Qed.
Lemma exponent10_mono m m' : 0 < m <= m' -> (exponent10 m <= exponent10 m')%Z.
Proof.
  intros [H1 H2]. destruct (exponent10_spec m H1) as [B1 _]. destruct (exponent10_spec m' ltac:(lra)) as [_ B2].
  destruct (Z.le_gt_cases (exponent10 m) (exponent10 m')); [assumption|]. pose proof (pow10_le (exponent10 m' + 1) (exponent10 m) ltac:(lia)). lra.
Qed.

(** The value of the rounded mantissa. *)
Definition mval (p : nat) (m : R) : R := let '(d, e) := mantissa p m in IZR d * powerRZ 10 (e - Z.of_nat p).
Definition mraw (p : nat) (m : R) : Z := round_even (m * powerRZ 10 (Z.of_nat p - exponent10 m)).
Lemma mraw_bounds p m : 0 < m -> (10 ^ Z.of_nat p <= mraw p m <= 10 ^ (Z.of_nat p + 1))%Z.
Proof.
  intro H. destruct (exponent10_spec m H) as [B1 B2]. set (e := exponent10 m) in *. unfold mraw. fold e.
  pose proof (pow10_pos (Z.of_nat p - e)) as P. split.
  - rewrite <- (round_even_IZR (10 ^ Z.of_nat p)). apply round_even_mono. rewrite <- pow10_nat. replace (Z.of_nat p) with (e + (Z.of_nat p - e))%Z at 1 by lia. rewrite pow10_add.
    apply Rmult_le_compat_r; lra.
  - rewrite <- (round_even_IZR (10 ^ (Z.of_nat p + 1))). apply round_even_mono. replace (Z.of_nat p + 1)%Z with (Z.of_nat (p + 1)) by lia. rewrite <- pow10_nat.
    replace (Z.of_nat (p + 1)) with ((e + 1) + (Z.of_nat p - e))%Z by lia. rewrite pow10_add. apply Rmult_le_compat_r; lra.
Qed.
Lemma mantissa_bounds p m d e : 0 < m -> mantissa p m = (d, e) -> (10 ^ Z.of_nat p <= d < 10 ^ (Z.of_nat p + 1))%Z /\ (exponent10 m <= e <= exponent10 m + 1)%Z.
Proof.
  intros H E. unfold mantissa in E. fold (mraw p m) in E. pose proof (mraw_bounds p m H). destruct (Z.eqb_spec (mraw p m) (10 ^ (Z.of_nat p + 1))); injection E as <- <-.
  - split; [|lia]. rewrite Z.pow_add_r by lia. lia.
  - lia.
Qed.
Lemma mval_raw p m : mval p m = IZR (mraw p m) * powerRZ 10 (exponent10 m - Z.of_nat p).
Proof.
  unfold mval, mantissa. fold (mraw p m). destruct (Z.eqb_spec (mraw p m) (10 ^ (Z.of_nat p + 1))) as [E|N]; [|reflexivity].
  rewrite E. rewrite Z.pow_add_r by lia. rewrite mult_IZR. change (10 ^ 1)%Z with 10%Z. replace (exponent10 m + 1 - Z.of_nat p)%Z with (1 + (exponent10 m - Z.of_nat p))%Z by lia.
  rewrite (pow10_add 1). rewrite powerRZ_1. ring.
Qed.
Lemma mval_error p m : 0 < m -> Rabs (mval p m - m) <= m * (5 / 10 ^ S p).
Proof.
  intro H. rewrite mval_raw. set (e := exponent10 m). destruct (exponent10_spec m H) as [B1 _]. fold e in B1. pose proof (round_even_error (m * powerRZ 10 (Z.of_nat p - e))) as Er. fold e (mraw p m) in Er.
  pose proof (pow10_pos (e - Z.of_nat p)) as P.
  assert (Inv : powerRZ 10 (Z.of_nat p - e) * powerRZ 10 (e - Z.of_nat p) = 1) by (rewrite <- pow10_add; replace (Z.of_nat p - e + (e - Z.of_nat p))%Z with 0%Z by lia; reflexivity).
  replace (IZR (mraw p m) * powerRZ 10 (e - Z.of_nat p) - m) with ((IZR (mraw p m) - m * powerRZ 10 (Z.of_nat p - e)) * powerRZ 10 (e - Z.of_nat p)).
  2: { rewrite Rmult_minus_distr_r, Rmult_assoc, Inv. ring. }
  rewrite Rabs_mult, (Rabs_pos_eq (powerRZ 10 (e - Z.of_nat p))) by lra.
  apply Rle_trans with (1 / 2 * powerRZ 10 (e - Z.of_nat p)); [apply Rmult_le_compat_r; [lra|exact Er]|].
  assert (Pp : 0 < 10 ^ p) by (apply pow_lt; lra).
  assert (E2 : powerRZ 10 (e - Z.of_nat p) = powerRZ 10 e / 10 ^ p).
  { replace e with ((e - Z.of_nat p) + Z.of_nat p)%Z at 2 by lia. rewrite pow10_add, <- pow_powerRZ. field. lra. }
  rewrite E2. replace (m * (5 / 10 ^ S p)) with (1 / 2 * (m / 10 ^ p)) by (cbn; field; lra).
  apply Rmult_le_compat_l; [lra|]. unfold Rdiv. apply Rmult_le_compat_r; [left; now apply Rinv_0_lt_compat|exact B1].
Qed.
Lemma mval_pos p m : 0 < m -> 0 < mval p m.
Proof.
  intro H. rewrite mval_raw. apply Rmult_lt_0_compat; [|apply pow10_pos]. apply IZR_lt. pose proof (mraw_bounds p m H). pose proof (Z.pow_pos_nonneg 10 (Z.of_nat p)). lia.
Qed.
Lemma mval_between p m : 0 < m -> powerRZ 10 (exponent10 m) <= mval p m <= powerRZ 10 (exponent10 m + 1).
Proof.
  intro H. rewrite mval_raw. set (e := exponent10 m). destruct (mraw_bounds p m H) as [B1 B2]. apply IZR_le in B1, B2. rewrite <- pow10_nat in B1.
  replace (Z.of_nat p + 1)%Z with (Z.of_nat (p + 1)) in B2 by lia. rewrite <- pow10_nat in B2. pose proof (pow10_pos (e - Z.of_nat p)) as P. split.
  - replace e with (Z.of_nat p + (e - Z.of_nat p))%Z at 1 by lia. rewrite pow10_add. apply Rmult_le_compat_r; lra.
  - replace (e + 1)%Z with (Z.of_nat (p + 1) + (e - Z.of_nat p))%Z by lia. rewrite pow10_add. apply Rmult_le_compat_r; lra.
Qed.
Lemma mval_mono p m m' : 0 < m <= m' -> mval p m <= mval p m'.
Proof.
  intros [H1 H2]. pose proof (exponent10_mono m m' (conj H1 H2)) as Em.
  destruct (Z.eq_dec (exponent10 m) (exponent10 m')) as [E|N].
  - rewrite !mval_raw. unfold mraw. rewrite <- E. apply Rmult_le_compat_r; [left; apply pow10_pos|]. apply IZR_le, round_even_mono, Rmult_le_compat_r; [left; apply pow10_pos|exact H2].
  - pose proof (mval_between p m H1). pose proof (mval_between p m' ltac:(lra)). pose proof (pow10_le (exponent10 m + 1) (exponent10 m') ltac:(lia)). lra.
Qed.

(** ** The formatted number *)
(** The value that fmt_e p x shows. *)
Definition shown (p : nat) (x : R) : R := if Reqb x 0 then 0 else if Rltb x 0 then - mval p (- x) else mval p x.
Lemma fmt_e_facts p x :
  read_number (fmt_e p x) = Some (shown p x) /\ Forall num_char (fmt_e p x) /\ minus_signs (fmt_e p x) /\ fmt_e p x <> [].
Proof.
  unfold fmt_e, shown. destruct (Reqb_spec x 0) as [E0|N0].
  - destruct (Rltb_spec x 0); [lra|]. cbn [app].
    assert (D : (0 <= 0 / 10 ^ Z.of_nat p < 10)%Z) by (rewrite Z.div_0_l; lia). destruct (body_facts p 0 0 D) as (F1 & F2 & F3 & F4). destruct (F4 false) as (k & _ & R).
    split; [|split; [exact F1|split; [exact F2|]]].
    + cbn [app] in R. cbn [app]. rewrite R. rewrite Z.div_0_l, Z.mod_0_l by lia. f_equal. unfold Rdiv. ring.
    + discriminate.
  - assert (Pm : 0 < Rabs x) by now apply Rabs_pos_lt. destruct (mantissa p (Rabs x)) as [d e] eqn:Em. destruct (mantissa_bounds p _ d e Pm Em) as [Bd Be].
    assert (D : (0 <= d / 10 ^ Z.of_nat p < 10)%Z).
    { split; [apply Z.div_pos; lia|]. apply Z.div_lt_upper_bound; [lia|]. rewrite Z.pow_add_r in Bd by lia. lia. }
    destruct (body_facts p d e D) as (F1 & F2 & (c & r & F3 & Fc) & F4).
    assert (V : (IZR (d / 10 ^ Z.of_nat p) + IZR (d mod 10 ^ Z.of_nat p) / 10 ^ p) * powerRZ 10 e = mval p (Rabs x)).
    { unfold mval. rewrite Em. assert (Pp : 0 < 10 ^ p) by (apply pow_lt; lra). assert (Ed : IZR d = 10 ^ p * IZR (d / 10 ^ Z.of_nat p) + IZR (d mod 10 ^ Z.of_nat p)).
      { rewrite (pow_IZR 10 p). rewrite <- mult_IZR, <- plus_IZR. f_equal. apply Z.div_mod. lia. }
      replace e with ((e - Z.of_nat p) + Z.of_nat p)%Z at 1 by lia. rewrite pow10_add, <- pow_powerRZ, Ed. field. lra. }
    destruct (Rltb_spec x 0) as [L|G].
    + rewrite Rabs_left in * by lra. destruct (F4 true) as (k & _ & R). split; [|split; [|split]].
      * rewrite R. f_equal. rewrite <- V. ring.
      * apply Forall_app. split; [|exact F1]. constructor; [right; right; right; now left|constructor].
      * rewrite F3 in *. cbn [txt list_ascii_of_string app minus_signs]. split; [intros _; exact Fc|exact F2].
      * discriminate.
    + rewrite Rabs_pos_eq in * by lra. destruct (F4 false) as (k & _ & R). cbn [app] in R. split; [|split; [exact F1|split; [exact F2|]]].
      * cbn [app]. rewrite R. f_equal. rewrite <- V. ring.
      * discriminate.
Qed.
Lemma shown_error p x : Rabs (shown p x - x) <= Rabs x * (5 / 10 ^ S p).
Proof.
  unfold shown. destruct (Reqb_spec x 0) as [-> |N]; [rewrite Rminus_0_r, Rabs_R0; lra|]. destruct (Rltb_spec x 0).
  - rewrite (Rabs_left x) by lra. replace (- mval p (- x) - x) with (- (mval p (- x) - - x)) by ring. rewrite Rabs_Ropp. apply mval_error. lra.
  - rewrite (Rabs_pos_eq x) by lra. apply mval_error. lra.
Qed.
Lemma shown_sign p x : (0 < shown p x <-> 0 < x) /\ (shown p x < 0 <-> x < 0).
Proof.
  unfold shown. destruct (Reqb_spec x 0) as [-> |N]; [split; lra|]. destruct (Rltb_spec x 0).
  - pose proof (mval_pos p (- x) ltac:(lra)). split; lra.
  - pose proof (mval_pos p x ltac:(lra)). split; lra.
Qed.
Lemma shown_mono p x y : x <= y -> shown p x <= shown p y.
Proof.
  intro H. unfold shown.
  destruct (Reqb_spec x 0) as [-> |Nx], (Reqb_spec y 0) as [-> |Ny]; try lra.
  - destruct (Rltb_spec y 0); [lra|]. pose proof (mval_pos p y ltac:(lra)). lra.
  - destruct (Rltb_spec x 0); [|lra]. pose proof (mval_pos p (- x) ltac:(lra)). lra.
  - destruct (Rltb_spec x 0), (Rltb_spec y 0).
    + pose proof (mval_mono p (- y) (- x) ltac:(lra)). lra.
    + pose proof (mval_pos p (- x) ltac:(lra)). pose proof (mval_pos p y ltac:(lra)). lra.
    + lra.
    + apply mval_mono. lra.
Qed.
Lemma fmt_e_shows p x : shows p (fmt_e p x) x.
Proof.
  exists (shown p x). destruct (fmt_e_facts p x) as (R & _). split; [exact R|]. split; [apply shown_error|]. apply shown_sign.
Qed.
Lemma fmt_e_length p x : double_range x -> (length (fmt_e p x) <= p + 8)%nat.
Proof.
  intro H. unfold fmt_e. destruct (if Reqb x 0 then (0, 0)%Z else mantissa p (Rabs x)) as [d e] eqn:Em.
  assert (Be : (-400 <= e <= 401)%Z).
  { destruct (Reqb_spec x 0) as [E0|N0]; [injection Em as _ <-; lia|]. assert (Pm : 0 < Rabs x) by now apply Rabs_pos_lt. destruct (mantissa_bounds p _ d e Pm Em) as [_ Be].
    destruct H as [H|[H1 H2]]; [congruence|]. destruct (exponent10_spec _ Pm) as [B1 B2].
    assert (-400 <= exponent10 (Rabs x))%Z by (destruct (Z.le_gt_cases (-400) (exponent10 (Rabs x))) as [L|G]; [exact L|pose proof (pow10_le (exponent10 (Rabs x) + 1) (-400) ltac:(lia)); lra]).
    assert (exponent10 (Rabs x) <= 400)%Z by (destruct (Z.le_gt_cases (exponent10 (Rabs x)) 400) as [L|G]; [exact L|pose proof (pow10_lt 400 (exponent10 (Rabs x)) ltac:(lia)); lra]).
    lia. }
  rewrite !app_length, last_digits_length. cbn [length txt list_ascii_of_string]. unfold show_exponent. rewrite !app_length.
  assert (L1 : (length (if (Z.abs e <? 100)%Z then last_digits 2 (Z.abs e) else show_Z (Z.abs e)) <= 3)%nat).
  { destruct (Z.abs e <? 100)%Z; [rewrite last_digits_length; lia|]. apply show_fuel_length. change (10 ^ Z.of_nat 3)%Z with 1000%Z. lia. }
  assert (L2 : (length (if (e <? 0)%Z then txt "-" else txt "+") = 1)%nat) by (destruct (e <? 0)%Z; reflexivity).
  assert (L3 : (length (if Rltb x 0 then txt "-" else []) <= 1)%nat) by (destruct (Rltb x 0); cbn; lia).
  cbn [length txt list_ascii_of_string] in *. lia.
Qed.
Lemma plain_num t : Forall num_char t -> t <> [] -> plain_word t.
Proof. intros F N. split; [exact N|]. eapply Forall_impl; [|exact F]. apply num_char_plain. Qed.
