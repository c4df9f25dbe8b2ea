(** PI to 16 digits. *)
From Coq Require Import Reals Lra Lia Machin QArith Qreals.
Open Scope R_scope.
Fixpoint qpow (q : Q) (n : nat) : Q := match n with O => 1%Q | S m => (q * qpow q m)%Q end.
Fixpoint qs (n : nat) : Q := 
  let t := (((2 # 1) * qpow (1 # 3) (2 * n + 1) + qpow (1 # 7) (2 * n + 1)) / (Z.of_nat (2 * n + 1) # 1) * (if Nat.even n then 1 else - (1)))%Q in
  match n with O => Qred t | S m => Qred (qs m + t)%Q end.
Lemma Q2R_pow q n : Q2R (qpow q n) = Q2R q ^ n.
Proof. induction n as [|n IH]; cbn [qpow pow]; [unfold Q2R; cbn; lra|]. now rewrite Q2R_mult, IH. Qed.
Lemma qs_ok n : Q2R (qs n) = sum_f_R0 (tg_alt PI_2_3_7_tg) n.
Proof.
  assert (T : forall n, Q2R (((2 # 1) * qpow (1 # 3) (2 * n + 1) + qpow (1 # 7) (2 * n + 1)) / (Z.of_nat (2 * n + 1) # 1) * (if Nat.even n then 1 else - (1)))%Q = tg_alt PI_2_3_7_tg n).
  { intro m. unfold tg_alt, PI_2_3_7_tg, Ratan_seq.
    rewrite Q2R_mult, Q2R_div, Q2R_plus, Q2R_mult, !Q2R_pow.
    - replace (Q2R (1 # 3)) with (/ 3) by (unfold Q2R; cbn; lra). replace (Q2R (1 # 7)) with (/ 7) by (unfold Q2R; cbn; lra). replace (Q2R (2 # 1)) with 2 by (unfold Q2R; cbn; lra).
      replace (Q2R (Z.of_nat (2 * m + 1) # 1)) with (INR (2 * m + 1)) by (unfold Q2R; cbn [Qnum Qden]; rewrite INR_IZR_INZ; lra).
      replace (Q2R (if Nat.even m then 1%Q else (- (1))%Q)) with ((-1) ^ m).
      + unfold Rdiv. ring.
      + clear. assert (G : forall k, (-1) ^ k = Q2R (if Nat.even k then 1%Q else (- (1))%Q) /\ (-1) ^ (S k) = Q2R (if Nat.even (S k) then 1%Q else (- (1))%Q)).
        { induction k as [|k [I1 I2]]; [unfold Q2R; cbn; lra|]. split; [exact I2|]. change (Nat.even (S (S k))) with (Nat.even k). rewrite <- I1. cbn [pow]. ring. }
        apply G.
    - intro E. apply Qeq_eqR in E. revert E. unfold Q2R. cbn [Qnum Qden]. intro E. assert (0 < IZR (Z.of_nat (2 * m + 1))) by (apply IZR_lt; lia). lra. }
  induction n as [|n IH]; cbn [qs sum_f_R0].
  - rewrite <- T. apply Qeq_eqR. apply Qred_correct.
  - rewrite <- IH, <- T, <- Q2R_plus. apply Qeq_eqR. apply Qred_correct.
Qed.
Lemma PI_16 : 3.1415926535897931 < PI < 3.1415926535897934.
Proof.
  pose proof (PI_2_3_7_ineq 9) as [A B]. rewrite <- qs_ok in A, B.
  assert (A' : Q2R (31415926535897931 # 40000000000000000) < Q2R (qs (S (2 * 9)))) by (apply Qlt_Rlt; vm_compute; reflexivity).
  assert (B' : Q2R (qs (2 * 9)) < Q2R (31415926535897934 # 40000000000000000)) by (apply Qlt_Rlt; vm_compute; reflexivity).
  unfold Q2R at 1 in A'. unfold Q2R at 2 in B'. cbn [Qnum Qden] in *. split; lra.
Qed.
