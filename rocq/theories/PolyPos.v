(** Polynomials with integer coefficients, lowest first, and a computed test that one is positive on an interval
    (used for the monotonicity of the Bosch-Hale fits). Nothing here models code. *)
From Coq Require Import Reals ZArith List Lra Lia Bool.
Import ListNotations.
Open Scope R_scope.

Definition poly := list Z.
Fixpoint peval (p : poly) (x : R) : R := match p with [] => 0 | a :: r => IZR a + x * peval r x end.
Fixpoint padd (p q : poly) : poly :=
  match p, q with [], _ => q | _, [] => p | a :: r, b :: s => (a + b)%Z :: padd r s end.
Definition pscale (k : Z) (p : poly) : poly := map (Z.mul k) p.
Fixpoint pmul (p q : poly) : poly := match p with [] => [] | a :: r => padd (pscale a q) (0%Z :: pmul r q) end.
Fixpoint pder_from (n : Z) (p : poly) : poly := match p with [] => [] | a :: r => (n * a)%Z :: pder_from (n + 1) r end.
Definition pder (p : poly) : poly := match p with [] => [] | _ :: r => pder_from 1 r end.

Lemma peval_add : forall p q x, peval (padd p q) x = peval p x + peval q x.
Proof.
  induction p as [|a p IH]; intros q x; [cbn; ring|]. destruct q as [|b q]; [cbn; ring|].
  cbn [padd peval]. rewrite IH, plus_IZR. ring.
Qed.
Lemma peval_scale : forall k p x, peval (pscale k p) x = IZR k * peval p x.
Proof. intros k p x. induction p as [|a p IH]; [cbn; ring|]. unfold pscale in *. cbn [map peval]. rewrite IH, mult_IZR. ring. Qed.
Lemma peval_mul : forall p q x, peval (pmul p q) x = peval p x * peval q x.
Proof.
  induction p as [|a p IH]; intros q x; [cbn; ring|]. cbn [pmul]. rewrite peval_add, peval_scale. cbn [peval]. rewrite IH. ring.
Qed.

(** (d + d s)^(length p) p((a + b s) / (d + d s)) *)
Fixpoint pw (d : Z) (n : nat) : poly := match n with O => [1%Z] | S k => pmul [d; d] (pw d k) end.
Fixpoint hom (a b d : Z) (p : poly) : poly :=
  match p with [] => [] | c :: r => padd (pscale c (pw d (S (length r)))) (pmul [a; b] (hom a b d r)) end.

Lemma peval_pw : forall d n s, peval (pw d n) s = (IZR d * (1 + s)) ^ n.
Proof. intros d n s; induction n as [|n IH]; [cbn; ring|]. cbn [pw]. rewrite peval_mul, IH. cbn. ring. Qed.

Lemma peval_hom : forall a b d p s t, IZR d * (1 + s) * t = IZR a + IZR b * s ->
  peval (hom a b d p) s = (IZR d * (1 + s)) ^ (length p) * peval p t.
Proof.
  intros a b d p s t H. induction p as [|c p IH]; [cbn; ring|].
  cbn [hom]. rewrite peval_add, peval_scale, peval_mul, IH, peval_pw. cbn [peval length]. rewrite <- tech_pow_Rmult.
  replace (IZR a + s * (IZR b + s * 0)) with (IZR d * (1 + s) * t) by (rewrite H; ring). ring.
Qed.

Lemma peval_nonneg : forall p s, forallb (Z.leb 0) p = true -> 0 <= s -> 0 <= peval p s.
Proof.
  induction p as [|a p IH]; intros s H Hs; [cbn; lra|]. cbn [forallb] in H. apply andb_true_iff in H as [Ha H].
  apply Z.leb_le in Ha. apply IZR_le in Ha. cbn [peval]. specialize (IH s H Hs). nra.
Qed.

Definition positive_on (a b d : Z) (p : poly) : bool :=
  Z.ltb 0 d && Z.ltb a b && match hom a b d p with [] => false | c :: r => Z.ltb 0 c && forallb (Z.leb 0) r end.

Lemma positive_on_spec : forall a b d p t, positive_on a b d p = true ->
  IZR a / IZR d <= t -> t < IZR b / IZR d -> 0 < peval p t.
Proof.
  intros a b d p t H L U. unfold positive_on in H.
  apply andb_true_iff in H as [H0 H]. apply andb_true_iff in H0 as [Hd Hab].
  apply Z.ltb_lt in Hd. apply Z.ltb_lt in Hab. apply IZR_lt in Hd. apply IZR_lt in Hab.
  assert (L' : IZR a <= IZR d * t) by (apply (Rmult_le_compat_l (IZR d)) in L; [field_simplify in L; lra|lra]).
  assert (U' : IZR d * t < IZR b) by (apply (Rmult_lt_compat_l (IZR d)) in U; [field_simplify in U; lra|lra]).
  set (s := (IZR d * t - IZR a) / (IZR b - IZR d * t)).
  assert (Hs : 0 <= s) by (apply Rmult_le_pos; [lra|apply Rlt_le, Rinv_0_lt_compat; lra]).
  assert (Q : IZR d * (1 + s) * t = IZR a + IZR b * s) by (unfold s; field; lra).
  assert (P : 0 < peval (hom a b d p) s).
  { destruct (hom a b d p) as [|c r]; [discriminate|]. apply andb_true_iff in H as [Hc Hr].
    apply Z.ltb_lt in Hc. apply IZR_lt in Hc. cbn [peval]. pose proof (peval_nonneg r s Hr Hs). nra. }
  rewrite (peval_hom _ _ _ _ _ _ Q) in P.
  assert (W : 0 < (IZR d * (1 + s)) ^ length p) by (apply pow_lt, Rmult_lt_0_compat; lra).
  destruct (Rle_or_lt (peval p t) 0) as [N|N]; [|exact N]. exfalso. nra.
Qed.

Lemma peval_der_from : forall p n x, peval (pder_from n p) x = IZR n * peval p x + x * peval (pder p) x.
Proof.
  induction p as [|a p IH]; intros n x; [cbn; ring|].
  cbn [pder_from peval pder]. rewrite IH. rewrite (IH 1%Z). rewrite mult_IZR, plus_IZR. ring.
Qed.
Lemma peval_derivable : forall p x, derivable_pt_lim (peval p) x (peval (pder p) x).
Proof.
  induction p as [|a p IH]; intro x; cbn [pder].
  - apply derivable_pt_lim_const.
  - replace (peval (pder_from 1 p) x) with (0 + (1 * peval p x + x * peval (pder p) x)) by (rewrite peval_der_from; ring).
    apply (derivable_pt_lim_plus (fun _ => IZR a) (fun x => x * peval p x)); [apply derivable_pt_lim_const|].
    apply (derivable_pt_lim_mult (fun x => x) (peval p)); [apply derivable_pt_lim_id|apply IH].
Qed.
