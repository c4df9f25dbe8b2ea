(** C90-C92: what moving, enlarging, mirroring or re-tracing the plasma does to the source. *)
From Coq Require Import Sorted Permutation String.
From Verif Require Import Base Reactions SpecReactions ReactionsProofs Profile Transport Space SpecSpace SpaceProofs P_Space
  Reactivity SpecReactivity ReactivityProofs P_Reactivity Source SpecSource SourceProofs P_Source Geometry Flux SpecFlux FluxProofs P_Flux SpecSym SymProofs SymSource.

(** ** C90 *)
Lemma enlarge_lattice k b o h i j : enlarge k b (lattice o h i j) = lattice (enlarge k b o) (k * h) i j.
Proof. unfold enlarge, lattice; cbn [fst snd]. f_equal; ring. Qed.
Lemma sample_enlarged k b lcfs o h : 0 < k -> 0 < h ->
  sample_space_2d mpl_inside (map (enlarge k b) lcfs) (enlarge k b o) (k * h) = res_map (map (carry (enlarge k b) (k ^ 3))) (sample_space_2d mpl_inside lcfs o h).
Proof.
  intros Hk Hh. assert (Hkh : 0 < k * h) by nra.
  destruct (sample_cases mpl_inside lcfs o h Hh) as [[-> E]|(xs & zs & _ & _ & E)].
  - rewrite E. destruct (sample_cases mpl_inside (map (enlarge k b) []) (enlarge k b o) (k * h) Hkh) as [[_ E']|(xs & zs & Ex & _)]; [rewrite E'; reflexivity|discriminate].
  - rewrite E. destruct (sample_cases mpl_inside (map (enlarge k b) lcfs) (enlarge k b o) (k * h) Hkh) as [[N _]|(xs' & zs' & _ & _ & E')].
    + apply map_eq_nil in N. subst. destruct (sample_cases mpl_inside [] o h Hh) as [[_ F]|(xs' & zs' & Ex & _)]; [congruence|discriminate].
    + rewrite E'. unfold res_map. cbn [bind]. f_equal.
      apply (carried_sorted mpl_inside lcfs (map (enlarge k b) lcfs) o (enlarge k b o) h (k * h) (enlarge k b) (fun p => (fst p / k, (snd p - b) / k)) (k ^ 3) mpl_inside_box Hh Hkh); try assumption.
      * intros [x z]. unfold enlarge; cbn [fst snd]. f_equal; field; lra.
      * intros i j. exists i, j. apply enlarge_lattice.
      * intros i j. exists i, j. rewrite <- enlarge_lattice. unfold enlarge; cbn [fst snd]. destruct (lattice o h i j) as [x z]. cbn [fst snd]. f_equal; field; lra.
      * intros i j. apply mpl_inside_enlarge. exact Hk.
      * intros p. unfold enlarge; cbn [fst]. ring.
      * intros p q H. unfold enlarge; cbn [fst]. nra.
      * intros p q H H'. unfold enlarge; cbn [fst snd]. rewrite H. split; [reflexivity|nra].
  all: try (intros [x z]; unfold enlarge; cbn [fst snd]; f_equal; field; lra).
Qed.

(** Enlarge a plasma k-fold (and move it up by b), sample it with k times the cell size, keep the profiles as functions of
    the flux label: the cells are the enlarged ones in the same order, with k^3 times the volume; temperatures, warnings and
    the channel list are the same, and every strength, rate and count is k^3 times the original. If the first constructor
    fails, so does the second, with the same error. *)
Theorem C90_similar_plasmas : forall m u h tr fm fm' arg side meth k b, 0 < k -> 0 < side -> image (enlarge k b) fm fm' ->
  make_source m u mpl_inside h tr fm' arg (k * side) None meth =
  res_map (fun sw => (relocated (enlarge k b) (k ^ 3) (k ^ 3) (k * side) fm' (fst sw), snd sw)) (make_source m u mpl_inside h tr fm arg side None meth).
Proof.
  intros m u h tr fm fm' arg side meth k b Hk Hs (El & Eo & Ep). apply make_carried; [|exact Ep]. rewrite El, Eo. now apply sample_enlarged.
Qed.
Print Assumptions C90_similar_plasmas.

(** With a requested fusion power the strengths, rates and counts are the same numbers as for the original plasma. *)
Theorem C90_same_when_normalised : forall m u h tr fm fm' arg side P meth k b, 0 < k -> 0 < side -> image (enlarge k b) fm fm' ->
  make_source m u mpl_inside h tr fm' arg (k * side) (Some P) meth =
  res_map (fun sw => (relocated (enlarge k b) (k ^ 3) 1 (k * side) fm' (fst sw), snd sw)) (make_source m u mpl_inside h tr fm arg side (Some P) meth).
Proof.
  intros m u h tr fm fm' arg side P meth k b Hk Hs (El & Eo & Ep). apply make_carried_normalised; [|rewrite El, Eo; now apply sample_enlarged|exact Ep].
  apply pow_nonzero. lra.
Qed.
Print Assumptions C90_same_when_normalised.

(** Consequences for the numbers a user reads off, whatever the power argument. *)
Lemma relocated_rate g v v' side fm s : source_rate (relocated g v v' side fm s) = v' * source_rate s.
Proof. unfold source_rate, relocated. cbn [num_neutrons_ps]. rewrite map_map. cbn [snd]. rewrite !pysum_total, <- total_scale_l, map_map. reflexivity. Qed.
Theorem C90_totals : forall m u h tr fm fm' arg side meth k b s ws, 0 < k -> 0 < side -> image (enlarge k b) fm fm' ->
  make_source m u mpl_inside h tr fm arg side None meth = Ok (s, ws) ->
  exists s', make_source m u mpl_inside h tr fm' arg (k * side) None meth = Ok (s', ws) /\
    length (cells s') = length (cells s) /\ temperature s' = temperature s /\
    source_rate s' = k ^ 3 * source_rate s /\ power m s' = k ^ 3 * power m s.
Proof.
  intros m u h tr fm fm' arg side meth k b s ws Hk Hs Hi E. rewrite (C90_similar_plasmas m u h tr fm fm' arg side meth k b Hk Hs Hi), E.
  unfold res_map. cbn [bind fst snd]. eexists. split; [reflexivity|]. split; [apply map_length|]. split; [reflexivity|]. split; [apply relocated_rate|].
  apply make_bare_ok in E. destruct E as (_ & _ & _ & _ & _ & psi & dd & dt & dh & f & _ & _ & _ & _ & _ & C & _). eapply relocated_power. exact C.
Qed.
Print Assumptions C90_totals.

(** Scaling the lengths among the shape parameters gives such an enlarged plasma: the boundary, the O-point and all nodes of the flux
    interpolation are the enlarged ones, with the same flux labels. Always for the Fausser shape, for the Sauter shape when its
    squareness is 0. *)
Lemma info_scaled r0 z0 asp kap del shift sq k b i : 0 < k -> make_lcfs_info r0 z0 asp kap del shift sq = Ok i ->
  make_lcfs_info (k * r0) (k * z0 + b) asp kap del (k * shift) sq =
  Ok {| r_0 := k * r_0 i; z_0 := k * z_0 i + b; aspect_ratio := aspect_ratio i; kappa := kappa i; delta := delta i;
        shafranov_shift := k * shafranov_shift i; squareness := squareness i; minor_radius := k * minor_radius i |}.
Proof.
  intros Hk E. apply lcfs_inv in E. destruct E as ((H1 & H2 & H3 & H4 & H5) & ->). cbn [r_0 z_0 aspect_ratio kappa delta shafranov_shift squareness minor_radius].
  unfold make_lcfs_info. assert (Q : k * r0 / asp = k * (r0 / asp)) by (field; lra). rewrite Q, Rabs_mult, (Rabs_right k) by lra.
  destruct (Rleb_spec (k * r0) 0); [exfalso; nra|]. destruct (Rleb_spec asp 1); [lra|]. destruct (Rltb_spec kap 1); [lra|].
  destruct (Rleb_spec (-1) del); [|lra]. destruct (Rleb_spec del 1); [|lra]. cbn [andb negb].
  destruct (Rleb_spec (k * (r0 / asp)) (k * Rabs shift)); [exfalso; nra|]. reflexivity.
Qed.
Theorem C90_parameterised : forall (kind : lcfs_info -> parameterisation) r0 z0 asp kap del shift sq i k b rho n c plasma, 0 < k ->
  kind = Fausser \/ kind = Sauter /\ sq = 0 ->
  make_lcfs_info r0 z0 asp kap del shift sq = Ok i -> from_parameterisation (kind i) rho n c = Ok plasma ->
  exists i' plasma', make_lcfs_info (k * r0) (k * z0 + b) asp kap del (k * shift) sq = Ok i' /\ from_parameterisation (kind i') rho n c = Ok plasma' /\
    points (map_lcfs plasma') = map (enlarge k b) (points (map_lcfs plasma)) /\
    (op_x (map_o_point plasma'), op_z (map_o_point plasma')) = enlarge k b (op_x (map_o_point plasma), op_z (map_o_point plasma)) /\
    exists it it', map_interp plasma = IParam it /\ map_interp plasma' = IParam it' /\
      pi_nodes it' = map (enlarge k b) (pi_nodes it) /\ pi_psi_norm it' = pi_psi_norm it.
Proof.
  intros kind r0 z0 asp kap del shift sq i k b rho n c plasma Hk Kd Ei Em.
  pose proof (info_scaled r0 z0 asp kap del shift sq k b i Hk Ei) as Ei'.
  match type of Ei' with _ = Ok ?x => set (i' := x) in * end.
  assert (Sh : shape i) by (exists r0, z0, asp, kap, del, shift, sq; exact Ei).
  assert (Sh' : shape i') by (exists (k * r0), (k * z0 + b), asp, kap, del, (k * shift), sq; exact Ei').
  assert (Sq : squareness i = sq) by (apply lcfs_inv in Ei; destruct Ei as (_ & ->); reflexivity).
  assert (Hi : forall j, info (kind j) = j) by (intro j; destruct Kd as [->|[-> _]]; reflexivity).
  assert (Pt : forall psi t, pt_of (kind i') psi t = enlarge k b (pt_of (kind i) psi t)).
  { intros psi t. destruct Kd as [->|[-> Z]]; cbn [pt_of].
    - rewrite !fausser_eq by assumption. unfold fausser, enlarge, i'; cbn [fst snd r_0 z_0 aspect_ratio kappa delta shafranov_shift squareness minor_radius]. f_equal; ring.
    - rewrite !sauter_eq. unfold sauter, enlarge, i'; cbn [fst snd r_0 z_0 aspect_ratio kappa delta shafranov_shift squareness minor_radius]. rewrite Sq, Z. f_equal; ring. }
  assert (Sf : forall psi, surf_pts (kind i') n psi = map (enlarge k b) (surf_pts (kind i) n psi)) by (intro psi; unfold surf_pts; rewrite map_map; apply map_ext; intro j; apply Pt).
  exists i'. unfold from_parameterisation in *.
  destruct (flux_surface (kind i) 1.0 n) as [l| |] eqn:El; cbn [bind] in Em; try discriminate.
  apply surface_inv in El; [|rewrite Hi; exact Sh]. destruct El as (Hn & ->).
  assert (Hp : positive rho <> []).
  { intro Z. unfold make_param_interp in Em. fold (positive rho) in Em. rewrite Z in Em. discriminate. }
  rewrite make_interp_ok in Em by (rewrite ?Hi; assumption). cbn [bind] in Em. injection Em as <-.
  eexists. split; [exact Ei'|]. rewrite (proj1 (surface_ok (kind i') 1.0 n ltac:(rewrite Hi; exact Sh') Hn)). cbn [bind].
  rewrite make_interp_ok by (rewrite ?Hi; assumption). cbn [bind]. split; [reflexivity|].
  cbn [map_lcfs map_o_point map_interp points op_x op_z]. split; [exact (Sf 1.0)|]. rewrite !Hi.
  assert (O : (r_0 i' + shafranov_shift i', z_0 i') = enlarge k b (r_0 i + shafranov_shift i, z_0 i)) by (unfold enlarge, i'; cbn; f_equal; ring).
  split; [exact O|]. do 2 eexists. split; [reflexivity|]. split; [reflexivity|]. cbn [pi_nodes pi_psi_norm op_x op_z]. split; [|reflexivity].
  cbn [map]. rewrite <- O. f_equal. rewrite concat_map, map_map. f_equal. apply map_ext. exact Sf.
Qed.
Print Assumptions C90_parameterised.

(** Not so for the Sauter shape with squareness: its radial term is a length that does not follow the size of the plasma. *)
Theorem C90_squareness_refuted : exists i i' plasma plasma', make_lcfs_info 3 0 3 1 0 0 (1/10) = Ok i /\ make_lcfs_info 6 0 3 1 0 0 (1/10) = Ok i' /\
  from_parameterisation (Sauter i) [1] 9 LINEAR = Ok plasma /\ from_parameterisation (Sauter i') [1] 9 LINEAR = Ok plasma' /\
  points (map_lcfs plasma') <> map (enlarge 2 0) (points (map_lcfs plasma)).
Proof.
  assert (E : exists i, make_lcfs_info 3 0 3 1 0 0 (1/10) = Ok i).
  { unfold make_lcfs_info. destruct (Rleb_spec 3 0); [lra|]. destruct (Rleb_spec 3 1); [lra|]. destruct (Rltb_spec 1 1); [lra|].
    destruct (Rleb_spec (-1) 0); [|lra]. destruct (Rleb_spec 0 1); [|lra]. cbn [andb negb]. rewrite Rabs_R0. destruct (Rleb_spec (3 / 3) 0); [lra|]. eauto. }
  destruct E as (i & E). pose proof (info_scaled _ _ _ _ _ _ _ 2 0 i ltac:(lra) E) as E'.
  replace (2 * 3) with 6 in E' by lra. replace (2 * 0 + 0) with 0 in E' by lra. replace (2 * 0) with 0 in E' by lra.
  match type of E' with _ = Ok ?x => set (i' := x) in * end.
  assert (Sh : shape i) by (exists 3, 0, 3, 1, 0, 0, (1/10); exact E). assert (Sh' : shape i') by (exists 6, 0, 3, 1, 0, 0, (1/10); exact E').
  assert (Sq : squareness i = 1/10) by (apply lcfs_inv in E; destruct E as (_ & ->); reflexivity).
  assert (P1 : positive [1] <> []) by (unfold positive; cbn [filter]; destruct (Rltb_spec 0 1); [discriminate|lra]).
  exists i, i'. unfold from_parameterisation. rewrite (proj1 (surface_ok (Sauter i) 1.0 9 Sh ltac:(lia))), (proj1 (surface_ok (Sauter i') 1.0 9 Sh' ltac:(lia))). cbn [bind].
  rewrite !make_interp_ok by (auto; lia). cbn [bind]. do 2 eexists. split; [exact E|]. split; [exact E'|]. split; [reflexivity|]. split; [reflexivity|].
  cbn [map_lcfs points]. intro Q. apply (f_equal (fun l => nth_error l 1)) in Q. rewrite !nth_error_map in Q. cbn [seq nth_error option_map pt_of] in Q.
  match type of Q with Some ?a = Some ?b => assert (Q1 : fst a = fst b) by congruence end. revert Q1. clear Q. unfold pt_of. rewrite !sauter_eq. unfold sauter, enlarge, i'; cbn [fst snd r_0 z_0 aspect_ratio kappa delta shafranov_shift squareness minor_radius].
  assert (A : angle 9 1 = PI / 4) by (unfold angle; cbn; field). rewrite A, Sq. replace (2 * (PI / 4)) with (PI / 2) by field. rewrite sin_PI2. lra.
Qed.
Print Assumptions C90_squareness_refuted.

(** ** Re-described curves *)
(** A point inserted on a straight segment changes no crossing parity. *)
Lemma crossing_split p a b q : on_edge q a b -> xorb (crossing p a q) (crossing p q b) = crossing p a b.
Proof.
  intros (t & T & Ex & Ez). unfold crossing.
  replace ((fst b - fst p) * (snd q - snd b)) with ((1 - t) * ((fst b - fst p) * (snd a - snd b))) by (rewrite Ez; ring).
  replace ((snd b - snd p) * (fst q - fst b)) with ((1 - t) * ((snd b - snd p) * (fst a - fst b))) by (rewrite Ex; ring).
  assert (D : (snd q - snd p) * (fst a - fst q) - (fst q - fst p) * (snd a - snd q) = t * ((snd b - snd p) * (fst a - fst b) - (fst b - fst p) * (snd a - snd b)))
    by (rewrite Ex, Ez; ring).
  set (A := (fst b - fst p) * (snd a - snd b)) in *. set (B := (snd b - snd p) * (fst a - fst b)) in *.
  set (A' := (fst q - fst p) * (snd a - snd q)) in *. set (B' := (snd q - snd p) * (fst a - fst q)) in *. clearbody A B A' B'.
  assert (S1 : 0 < t -> Rleb A' B' = Rleb A B) by (intro; destruct (Rleb_spec A' B'), (Rleb_spec A B); try reflexivity; exfalso; nra).
  assert (S2 : t < 1 -> Rleb ((1 - t) * A) ((1 - t) * B) = Rleb A B) by (intro; destruct (Rleb_spec ((1 - t) * A) ((1 - t) * B)), (Rleb_spec A B); try reflexivity; exfalso; nra).
  destruct (Rleb_spec (snd p) (snd a)) as [Ha|Ha], (Rleb_spec (snd p) (snd q)) as [Hq|Hq], (Rleb_spec (snd p) (snd b)) as [Hb|Hb]; cbn [Bool.eqb xorb]; try reflexivity.
  - rewrite S2; [destruct (Rleb A B); reflexivity|]. destruct (Req_dec t 1) as [->|]; [exfalso; lra|lra].
  - exfalso. assert (snd a + t * (snd b - snd a) >= snd p) by nra. lra.
  - rewrite S1; [destruct (Rleb A B); reflexivity|]. destruct (Req_dec t 0) as [->|]; [exfalso; lra|lra].
  - rewrite S1; [destruct (Rleb A B); reflexivity|]. destruct (Req_dec t 0) as [->|]; [exfalso; lra|lra].
  - exfalso. apply Rnot_le_lt in Ha, Hb. assert (0 <= (1 - t) * (snd p - snd a)) by (apply Rmult_le_pos; lra). assert (0 <= t * (snd p - snd b)) by (apply Rmult_le_pos; lra).
    destruct (Req_dec t 0) as [->|Nt]; [lra|]. assert (0 < t * (snd p - snd b)) by (apply Rmult_lt_0_compat; lra). lra.
  - rewrite S2; [destruct (Rleb A B); reflexivity|]. destruct (Req_dec t 1) as [->|]; [exfalso; lra|lra].
Qed.
Lemma chain_split p l a b q r : on_edge q a b -> chain (crossing p) (l ++ a :: q :: b :: r) = chain (crossing p) (l ++ a :: b :: r).
Proof.
  intro H. rewrite (chain_app _ l a (q :: b :: r)), (chain_app _ l a (b :: r)). f_equal. change (xorb (crossing p a q) (xorb (crossing p q b) (chain (crossing p) (b :: r))) = xorb (crossing p a b) (chain (crossing p) (b :: r))).
  rewrite <- xorb_assoc. f_equal. now apply crossing_split.
Qed.
Lemma inside_refined l l' p : refined l l' -> mpl_inside l' p = mpl_inside l p.
Proof.
  induction 1 as [l|l a b r q l' H _ IH|a r b q l' H _ IH]; [reflexivity| |]; rewrite IH, !inside_chain.
  - destruct l as [|v l]; cbn [app].
    + exact (chain_split p [] a b q (r ++ [a]) H).
    + rewrite <- !app_assoc. cbn [app]. exact (chain_split p (v :: l) a b q (r ++ [v]) H).
  - cbn [app]. rewrite <- !app_assoc. cbn [app]. exact (chain_split p (a :: r) b a q [] H).
Qed.
Lemma inside_closed v r p : mpl_inside (v :: r ++ [v]) p = mpl_inside (v :: r) p.
Proof.
  rewrite !inside_chain. rewrite <- app_assoc. cbn [app]. change (v :: r ++ [v; v]) with ((v :: r) ++ v :: [v]). rewrite chain_app. cbn [app].
  change (chain (crossing p) [v; v]) with (xorb (crossing p v v) false). rewrite xorb_false_r.
  assert (Q : crossing p v v = false) by (unfold crossing; now rewrite Bool.eqb_reflx). rewrite Q. apply xorb_false_r.
Qed.
Lemma inside_restarted l l' p : restarted l l' -> mpl_inside l' p = mpl_inside l p.
Proof.
  intros [l1 l2|v r1 w r2]; [apply inside_rotate|].
  replace (v :: r1 ++ w :: r2 ++ [v]) with (v :: (r1 ++ w :: r2) ++ [v]) by (now rewrite <- app_assoc).
  replace (w :: r2 ++ v :: r1 ++ [w]) with (w :: (r2 ++ v :: r1) ++ [w]) by (now rewrite <- app_assoc).
  rewrite !inside_closed. exact (inside_rotate (w :: r2) (v :: r1) p).
Qed.

(** ** C91 *)
Lemma mirror_invol c p : mirror c (mirror c p) = p.
Proof. destruct p as [x z]. unfold mirror; cbn [fst snd]. f_equal. ring. Qed.
Lemma mirror_lattice c o h i j : mirror c (lattice o h i j) = lattice (mirror c o) h i (- j).
Proof. unfold mirror, lattice; cbn [fst snd]. f_equal. rewrite opp_IZR. ring. Qed.

(** Mirror the whole plasma in a horizontal plane (for instance an upper instead of a lower X-point): as long as no cell
    centre falls exactly on the boundary, the source is the mirrored one: each mirrored cell is there once, with its volume and
    strength in every channel, and all rates and the power agree. *)
Theorem C91_mirror : forall m u h tr fm fm' arg side P meth c s ws, 0 < side -> image (mirror c) fm fm' -> clear_of (fm_lcfs fm) (fm_o fm) side ->
  make_source m u mpl_inside h tr fm arg side P meth = Ok (s, ws) ->
  exists s', make_source m u mpl_inside h tr fm' arg side P meth = Ok (s', ws) /\ rearranged (power m) (mirror c) s s'.
Proof.
  intros m u h tr fm fm' arg side P meth c s ws Hs (El & Eo & Ep) Hc E.
  destruct (sample_space_2d mpl_inside (fm_lcfs fm) (fm_o fm) side) as [cs|e|] eqn:Ec.
  2,3: exfalso; unfold make_source in E; rewrite Ec in E; destruct (parse_source_type arg); discriminate.
  assert (Same : forall i j, mpl_inside (fm_lcfs fm') (mirror c (lattice (fm_o fm) side i j)) = mpl_inside (fm_lcfs fm) (lattice (fm_o fm) side i j))
    by (intros i j; rewrite El; apply inside_mirror; apply Hc).
  destruct (sample_ok_iff mpl_inside (fm_lcfs fm) (fm_lcfs fm') (fm_o fm) (fm_o fm') side side Hs Hs) with (2 := Ec) as (cs' & Ec').
  { rewrite El. split; intro Q; [now apply map_eq_nil in Q|now rewrite Q]. }
  apply (make_rearranged_any m u mpl_inside mpl_inside h tr fm fm' arg side side P meth (mirror c) cs cs' s ws Ec Ec'); [|exact Ep|exact E].
  apply (carried_perm mpl_inside (fm_lcfs fm) (fm_lcfs fm') (fm_o fm) (fm_o fm') side side (mirror c) (mirror c) 1 mpl_inside_box Hs Hs (mirror_invol c) (mirror_invol c)); try assumption.
  - intros i j. exists i, (- j)%Z. rewrite Eo. apply mirror_lattice.
  - intros i j. exists i, (- j)%Z. rewrite Eo, mirror_lattice, mirror_invol. reflexivity.
  - intro p. unfold mirror; cbn [fst]. ring.
Qed.
Print Assumptions C91_mirror.

(** Hence an up-down symmetric plasma has an up-down symmetric source. *)
Theorem C91_symmetric_plasma : forall m u h tr fm arg side P meth c s ws, 0 < side ->
  restarted (rev (fm_lcfs fm)) (map (mirror c) (fm_lcfs fm)) -> snd (fm_o fm) = c -> (forall p, fm_psi_norm fm (mirror c p) = fm_psi_norm fm p) ->
  clear_of (fm_lcfs fm) (fm_o fm) side ->
  make_source m u mpl_inside h tr fm arg side P meth = Ok (s, ws) ->
  rearranged (power m) (mirror c) s s.
Proof.
  intros m u h tr fm arg side P meth c s ws Hs El Eo Ep Hc E.
  destruct (sample_space_2d mpl_inside (fm_lcfs fm) (fm_o fm) side) as [cs|e|] eqn:Ec.
  2,3: exfalso; unfold make_source in E; rewrite Ec in E; destruct (parse_source_type arg); discriminate.
  assert (Mo : mirror c (fm_o fm) = fm_o fm) by (destruct (fm_o fm) as [x z]; unfold mirror; cbn [fst snd] in *; subst; f_equal; ring).
  assert (Same : forall i j, mpl_inside (fm_lcfs fm) (mirror c (lattice (fm_o fm) side i j)) = mpl_inside (fm_lcfs fm) (lattice (fm_o fm) side i j)).
  { intros i j. rewrite <- (inside_mirror c (fm_lcfs fm) (lattice (fm_o fm) side i j)) by apply Hc. rewrite (inside_restarted _ _ _ El). symmetry. apply inside_rev.
    rewrite mirror_lattice, Mo. apply Hc. }
  assert (X : Permutation (map (carry (mirror c) 1) cs) cs).
  { apply (carried_perm mpl_inside (fm_lcfs fm) (fm_lcfs fm) (fm_o fm) (fm_o fm) side side (mirror c) (mirror c) 1 mpl_inside_box Hs Hs (mirror_invol c) (mirror_invol c)); try assumption.
    - intros i j. exists i, (- j)%Z. rewrite mirror_lattice, Mo. reflexivity.
    - intros i j. exists i, (- j)%Z. rewrite mirror_lattice, Mo. reflexivity.
    - intro p. unfold mirror; cbn [fst]. ring. }
  destruct (make_rearranged_any m u mpl_inside mpl_inside h tr fm fm arg side side P meth (mirror c) cs cs s ws Ec Ec X Ep E) as (s' & E' & Rr).
  rewrite E in E'. injection E' as <-. exact Rr.
Qed.
Print Assumptions C91_symmetric_plasma.

(** Every Fausser-shaped plasma is symmetric in this sense, at the height of its O-point. *)
Theorem C91_fausser : forall m u h tr r0 z0 asp kap del shift sq i rho n conv plasma psi arg side P meth s ws, 0 < side -> (2 <= n)%nat ->
  make_lcfs_info r0 z0 asp kap del shift sq = Ok i -> from_parameterisation (Fausser i) rho n conv = Ok plasma ->
  (forall x z, psi (x, 2 * z0 - z) = psi (x, z)) ->
  clear_of (points (map_lcfs plasma)) (op_x (map_o_point plasma), op_z (map_o_point plasma)) side ->
  make_source m u mpl_inside h tr
    {| fm_lcfs := points (map_lcfs plasma); fm_o := (op_x (map_o_point plasma), op_z (map_o_point plasma)); fm_psi_norm := psi |} arg side P meth = Ok (s, ws) ->
  rearranged (power m) (mirror z0) s s.
Proof.
  intros m u h tr r0 z0 asp kap del shift sq i rho n conv plasma psi arg side P meth s ws Hs Hn Ei Em Hpsi Hc E.
  assert (Sh : shape i) by (exists r0, z0, asp, kap, del, shift, sq; exact Ei).
  assert (Z : z_0 i = z0) by (apply lcfs_inv in Ei; destruct Ei as (_ & ->); reflexivity).
  assert (L : rev (points (map_lcfs plasma)) = map (mirror z0) (points (map_lcfs plasma)) /\ op_z (map_o_point plasma) = z0).
  { unfold from_parameterisation in Em. destruct (flux_surface (Fausser i) 1.0 n) as [l| |] eqn:El; cbn [bind] in Em; try discriminate.
    destruct (make_param_interp (Fausser i) _ rho n conv); cbn [bind] in Em; try discriminate. injection Em as <-. cbn [map_lcfs map_o_point op_z info].
    split; [|exact Z]. rewrite <- Z. exact (C37_up_down_symmetric i 1.0 n l Sh Hn El). }
  destruct L as [L Zo].
  apply (fun H1 H2 H3 H4 H5 => C91_symmetric_plasma _ _ _ _ _ _ side _ _ z0 s ws H1 H2 H3 H4 H5 E); cbn [fm_lcfs fm_o fm_psi_norm snd]; try assumption.
  - rewrite L, <- (app_nil_l (map (mirror z0) _)) at 1. rewrite <- (app_nil_r (map (mirror z0) _)) at 2. apply restarted_open.
  - intros [x z]. apply Hpsi.
Qed.
Print Assumptions C91_fausser.

(** ** C92 *)
Lemma carry_id l : map (carry (fun p => p) 1) l = l.
Proof. induction l as [|[[x z] w] l IH]; [reflexivity|]. cbn [map]. rewrite IH. f_equal. unfold carry, sx, sz, svol. cbn [fst snd]. f_equal. ring. Qed.
Lemma sample_same lcfs lcfs' o h : 0 < h -> (lcfs' = [] <-> lcfs = []) -> (forall i j, mpl_inside lcfs' (lattice o h i j) = mpl_inside lcfs (lattice o h i j)) ->
  sample_space_2d mpl_inside lcfs' o h = sample_space_2d mpl_inside lcfs o h.
Proof.
  intros Hh N Same. destruct (sample_space_2d mpl_inside lcfs o h) as [cs|e|] eqn:E.
  - destruct (sample_ok_iff mpl_inside lcfs lcfs' o o h h Hh Hh N cs E) as (cs' & E'). rewrite E'. f_equal. rewrite <- (carry_id cs).
    apply (carried_sorted mpl_inside lcfs lcfs' o o h h (fun p => p) (fun p => p) 1 mpl_inside_box Hh Hh); try assumption; try (intros; reflexivity); eauto.
    intro p. ring.
  - destruct (sample_cases mpl_inside lcfs o h Hh) as [[Q F]|(xs & zs & _ & _ & F)]; [|congruence].
    destruct (sample_cases mpl_inside lcfs' o h Hh) as [[Q' F']|(xs & zs & X & _)]; [congruence|]. apply N in Q. subst. discriminate.
  - destruct (sample_cases mpl_inside lcfs o h Hh) as [[Q F]|(xs & zs & _ & _ & F)]; congruence.
Qed.
Lemma make_source_lcfs m u h tr fm arg side P meth l' :
  sample_space_2d mpl_inside l' (fm_o fm) side = sample_space_2d mpl_inside (fm_lcfs fm) (fm_o fm) side ->
  make_source m u mpl_inside h tr (with_lcfs fm l') arg side P meth =
  res_map (fun sw => (with_map (with_lcfs fm l') (fst sw), snd sw)) (make_source m u mpl_inside h tr fm arg side P meth).
Proof.
  intro E. unfold make_source. destruct (parse_source_type arg) as [types| |]; cbn [bind]; try reflexivity.
  cbn [with_lcfs fm_lcfs fm_o fm_psi_norm]. rewrite E.
  destruct (sample_space_2d mpl_inside (fm_lcfs fm) (fm_o fm) side) as [cs| |]; cbn [bind]; try reflexivity.
  destruct (mapM (fun c => fm_psi_norm fm (fst (fst c), snd (fst c))) cs) as [psi| |]; cbn [bind]; try reflexivity.
  destruct (mapM (read h (temp_prof tr)) psi) as [temps| |]; cbn [bind]; try reflexivity.
  destruct (mapM (read h (d_prof tr)) psi) as [dd| |]; cbn [bind]; try reflexivity.
  destruct (mapM (read h (t_prof tr)) psi) as [dt| |]; cbn [bind]; try reflexivity.
  destruct (mapM (read h (he3_prof tr)) psi) as [dh| |]; cbn [bind]; try reflexivity.
  match goal with |- context [add_reactions m u temps ?a ?b meth ?c types] => destruct (add_reactions m u temps a b meth c types) as [[[[st nr] nn] w]| |]; cbn [bind]; try reflexivity end.
  destruct P as [P|]; [|reflexivity].
  match goal with |- bind (normalise_fusion_power m ?a P) _ = res_map _ (bind (normalise_fusion_power m ?b P) _) =>
    assert (Q : normalise_fusion_power m a P = res_map (with_map (with_lcfs fm l')) (normalise_fusion_power m b P)) end.
  { unfold normalise_fusion_power, calculate_total_fusion_power. cbn [source_type strength num_reactions num_neutrons_ps].
    match goal with |- bind ?A _ = res_map _ (bind ?B _) => change B with A; destruct A as [act| |]; cbn [bind]; try reflexivity end.
    match goal with |- bind ?A _ = _ => destruct A as [kk| |]; cbn [bind]; try reflexivity end.
    destruct (rescale kk st nr nn types) as [[[x y] z]| |]; reflexivity. }
  rewrite Q. clear Q. match goal with |- context [normalise_fusion_power m ?b P] => destruct (normalise_fusion_power m b P); reflexivity end.
Qed.

(** The point the boundary list starts from is immaterial: the same cells, volumes and strengths in the same order, the same
    warnings, or the same error; with or without a requested power. *)
Theorem C92_start : forall m u h tr fm arg side P meth l', 0 < side -> restarted (fm_lcfs fm) l' ->
  make_source m u mpl_inside h tr (with_lcfs fm l') arg side P meth =
  res_map (fun sw => (with_map (with_lcfs fm l') (fst sw), snd sw)) (make_source m u mpl_inside h tr fm arg side P meth).
Proof.
  intros m u h tr fm arg side P meth l' Hs H. apply make_source_lcfs, sample_same; [exact Hs| |intros i j; now apply inside_restarted].
  destruct H as [l1 l2|v r1 w r2]; [|split; discriminate].
  split; intro Q; apply app_eq_nil in Q; destruct Q as [-> ->]; reflexivity.
Qed.
Print Assumptions C92_start.

(** So are further points along its straight segments. *)
Theorem C92_extra_points : forall m u h tr fm arg side P meth l', 0 < side -> refined (fm_lcfs fm) l' ->
  make_source m u mpl_inside h tr (with_lcfs fm l') arg side P meth =
  res_map (fun sw => (with_map (with_lcfs fm l') (fst sw), snd sw)) (make_source m u mpl_inside h tr fm arg side P meth).
Proof.
  intros m u h tr fm arg side P meth l' Hs H. apply make_source_lcfs, sample_same; [exact Hs| |intros i j; now apply inside_refined].
  induction H as [l|l a b r q l' H _ IH|a r b q l' H _ IH]; [tauto| |]; rewrite IH; (split; intro Q; exfalso).
  all: try discriminate. all: destruct l; discriminate.
Qed.
Print Assumptions C92_extra_points.

(** And so is the direction it is traced in, as long as no cell centre falls exactly on it. *)
Theorem C92_direction : forall m u h tr fm arg side P meth, 0 < side -> clear_of (fm_lcfs fm) (fm_o fm) side ->
  make_source m u mpl_inside h tr (with_lcfs fm (rev (fm_lcfs fm))) arg side P meth =
  res_map (fun sw => (with_map (with_lcfs fm (rev (fm_lcfs fm))) (fst sw), snd sw)) (make_source m u mpl_inside h tr fm arg side P meth).
Proof.
  intros m u h tr fm arg side P meth Hs H. apply make_source_lcfs, sample_same; [exact Hs| |intros i j; apply inside_rev, H].
  split; intro Q; [|now rewrite Q]. now rewrite <- (rev_involutive (fm_lcfs fm)), Q.
Qed.
Print Assumptions C92_direction.

(** ** Concrete cases *)
Lemma square_inside x y : 1 < x < 3 -> -1 < y < 1 -> mpl_inside square_lcfs (x, y) = true.
Proof.
  intros Hx Hy. unfold mpl_inside, square_lcfs, crossings, crossing; cbn [fst snd].
  repeat match goal with |- context [Rleb ?a ?b] => destruct (Rleb_spec a b); try (exfalso; lra) end; cbn; reflexivity.
Qed.
Lemma square_source side : 0 < side -> exists s ws,
  make_source nominal_masses nominal_units mpl_inside ex_heap ex_transport ex_map (SList [IStr "D-T"%string; IStr "D-D"%string]) side None MAuto = Ok (s, ws) /\
  sample_space_2d mpl_inside square_lcfs (2, 0) side = Ok (cells s) /\ cells s <> [].
Proof.
  intro Hs. destruct C16_C17_example as (Hm & Hu & Hk & _).
  destruct (C28_total mpl_inside square_lcfs (2, 0) side Hs) as [_ T]. destruct T as [cs Es]; [discriminate|].
  assert (Ne : cs <> []).
  { destruct (C29_no_cell_missed mpl_inside square_lcfs (2, 0) side cs Hs mpl_inside_box Es 0%Z 0%Z) as (c & Hc & _); [|intros ->; contradiction].
    unfold lattice; cbn [fst snd]. apply square_inside; lra. }
  destruct (C06_constructor_succeeds nominal_masses nominal_units mpl_inside ex_heap ex_transport ex_map (SList [IStr "D-T"%string; IStr "D-D"%string])
    side MAuto cs Hm Hu Hk) as (s & ws & E & Ec).
  - intros x [<-|[<-|[]]]; eexists; constructor; cbn; auto.
  - exact Es.
  - exact Ne.
  - intros c0 _. eexists; reflexivity.
  - intro psi. exists 10. split; [apply (ex_read 0); lia|lra].
  - intros p psi Hp. assert (p = 1%nat) as -> by (destruct Hp as [<-|[<-|[<-|[]]]]; reflexivity). exists 1e20. apply (ex_read 1). lia.
  - exists s, ws. rewrite Ec. auto.
Qed.

(** C90: the example plasma, doubled and moved up by 5. *)
Definition ex_double : flux_map :=
  {| fm_lcfs := map (enlarge 2 5) square_lcfs; fm_o := enlarge 2 5 (2, 0); fm_psi_norm := fun p => Ok (Rabs (fst p / 2 - 2) / 2) |}.
Example C90_example : image (enlarge 2 5) ex_map ex_double /\ exists s ws s',
  make_source nominal_masses nominal_units mpl_inside ex_heap ex_transport ex_map (SList [IStr "D-T"%string; IStr "D-D"%string]) (1/2) None MAuto = Ok (s, ws) /\
  make_source nominal_masses nominal_units mpl_inside ex_heap ex_transport ex_double (SList [IStr "D-T"%string; IStr "D-D"%string]) (2 * (1/2)) None MAuto = Ok (s', ws) /\
  cells s <> [] /\ power nominal_masses s' = 8 * power nominal_masses s /\ power nominal_masses s <> 0.
Proof.
  assert (Im : image (enlarge 2 5) ex_map ex_double).
  { split; [reflexivity|]. split; [reflexivity|]. intros [x z]. cbn [fm_psi_norm ex_map ex_double]. unfold enlarge; cbn [fst snd]. do 4 f_equal. field. }
  split; [exact Im|]. destruct C06_C12_example as (s & ws & E & _ & _ & P & _ & Cn & _). exists s, ws.
  destruct (fun H1 H2 => C90_totals _ _ _ _ _ _ _ (1/2) _ 2 5 _ _ H1 H2 Im E) as (s' & E' & _ & _ & _ & Q); [lra|lra|]. exists s'.
  split; [exact E|]. split; [exact E'|]. split; [exact Cn|]. split; [rewrite Q; ring|exact P].
Qed.

(** C91, C92: with cells of side 2/3 no cell centre of the example plasma is on its boundary. *)
Lemma square_clear : clear_of square_lcfs (2, 0) (2/3).
Proof.
  assert (Z : forall i, IZR i * (2/3) <> 1 /\ IZR i * (2/3) <> -1).
  { intro i. split; intro Q.
    - assert (W : IZR (2 * i) = IZR 3) by (rewrite mult_IZR; lra). apply eq_IZR in W. lia.
    - assert (W : IZR (2 * i) = IZR (-3)) by (rewrite mult_IZR; lra). apply eq_IZR in W. lia. }
  intros i j H. unfold lattice, square_lcfs, on_curve, on_chain in H; cbn [fst snd] in H. destruct (Z i) as [Z1 Z2], (Z j) as [Z3 Z4].
  destruct H as [H|[H|[H|[H|[H|[]]]]]]; destruct H as (t & T & H1 & H2); cbn [fst snd] in *; first [apply Z1; lra|apply Z2; lra|apply Z3; lra|apply Z4; lra].
Qed.
Example C91_example :
  image (mirror 1) ex_map {| fm_lcfs := [(1, 3); (3, 3); (3, 1); (1, 1); (1, 3)]; fm_o := (2, 2); fm_psi_norm := fm_psi_norm ex_map |} /\
  clear_of (fm_lcfs ex_map) (fm_o ex_map) (2/3) /\ exists s ws,
  make_source nominal_masses nominal_units mpl_inside ex_heap ex_transport ex_map (SList [IStr "D-T"%string; IStr "D-D"%string]) (2/3) None MAuto = Ok (s, ws) /\
  cells s <> [] /\ rearranged (power nominal_masses) (mirror 0) s s.
Proof.
  split; [|split; [exact square_clear|]].
  { split; [|split]; cbn [fm_lcfs fm_o fm_psi_norm ex_map square_lcfs map]; unfold mirror; cbn [fst snd]; [repeat (f_equal; try lra)|f_equal; lra|reflexivity]. }
  destruct (square_source (2/3) ltac:(lra)) as (s & ws & E & _ & Cn). exists s, ws. split; [exact E|]. split; [exact Cn|].
  apply (fun H1 H2 H3 H4 H5 => C91_symmetric_plasma _ _ _ _ _ _ (2/3) _ _ 0 s ws H1 H2 H3 H4 H5 E).
  - lra.
  - replace (map (mirror 0) (fm_lcfs ex_map)) with ([(1, 1); (3, 1); (3, -1); (1, -1); (1, 1)]).
    + exact (restarted_closed (1, -1) [] (1, 1) [(3, 1); (3, -1)]).
    + cbn [ex_map fm_lcfs square_lcfs map]. unfold mirror; cbn [fst snd]. repeat (f_equal; try lra).
  - reflexivity.
  - intros [x z]. reflexivity.
  - exact square_clear.
Qed.
(** With cells of side 1 the top row of cell centres lies on the boundary and is kept, the bottom row is dropped. *)
Theorem C91_boundary_refuted : exists s ws,
  make_source nominal_masses nominal_units mpl_inside ex_heap ex_transport ex_map (SList [IStr "D-T"%string; IStr "D-D"%string]) 1 None MAuto = Ok (s, ws) /\
  (exists c, In c (cells s) /\ (sx c, sz c) = (2, 1)) /\ (forall c, In c (cells s) -> (sx c, sz c) <> (2, -1)) /\
  ~ rearranged (power nominal_masses) (mirror 0) s s.
Proof.
  destruct (square_source 1 ltac:(lra)) as (s & ws & E & Es & Cn). exists s, ws. split; [exact E|].
  assert (A : exists c, In c (cells s) /\ (sx c, sz c) = (2, 1)).
  { destruct (C29_no_cell_missed mpl_inside square_lcfs (2, 0) 1 (cells s) ltac:(lra) mpl_inside_box Es 0%Z 1%Z) as (c & Hc & L).
    - unfold lattice; cbn [fst snd]. unfold mpl_inside, square_lcfs, crossings, crossing; cbn [fst snd].
      repeat match goal with |- context [Rleb ?a ?b] => destruct (Rleb_spec a b); try (exfalso; lra) end; cbn; reflexivity.
    - exists c. split; [exact Hc|]. rewrite L. unfold lattice; cbn [fst snd]. f_equal; lra. }
  assert (B : forall c, In c (cells s) -> (sx c, sz c) <> (2, -1)).
  { intros c Hc Q. destruct (sample_lattice mpl_inside _ _ 1 ltac:(lra) _ Es c Hc) as (In_ & _). rewrite Q in In_. revert In_.
    unfold mpl_inside, square_lcfs, crossings, crossing; cbn [fst snd].
    repeat match goal with |- context [Rleb ?a ?b] => destruct (Rleb_spec a b); try (exfalso; lra) end; cbn; discriminate. }
  split; [exact A|]. split; [exact B|]. intros (_ & P & _). destruct A as (c & Hc & Q).
  assert (H : In (carry (mirror 0) 1 c) (cells s)) by (eapply Permutation_in; [exact P|apply in_map; exact Hc]).
  apply (B _ H). unfold carry. rewrite Q. unfold mirror, sx, sz; cbn [fst snd]. f_equal. lra.
Qed.
Print Assumptions C91_boundary_refuted.

(** The square with the middle of its top side added, from another corner. *)
Example C92_example : restarted square_lcfs [(3, 1); (1, 1); (1, -1); (3, -1); (3, 1)] /\
  refined square_lcfs [(1, -1); (3, -1); (3, 1); (2, 1); (1, 1); (1, -1)] /\ clear_of (fm_lcfs ex_map) (fm_o ex_map) (2/3) /\
  exists s ws, make_source nominal_masses nominal_units mpl_inside ex_heap ex_transport ex_map (SList [IStr "D-T"%string; IStr "D-D"%string]) (2/3) None MAuto = Ok (s, ws) /\ cells s <> [].
Proof.
  split; [exact (restarted_closed (1, -1) [(3, -1)] (3, 1) [(1, 1)])|]. split; [|split; [exact square_clear|]].
  - apply (refined_between [(1, -1); (3, -1)] (3, 1) (1, 1) [(1, -1)] (2, 1)); [|apply refined_refl].
    exists (1/2). cbn [fst snd]. repeat split; lra.
  - destruct (square_source (2/3) ltac:(lra)) as (s & ws & E & _ & Cn). exists s, ws. auto.
Qed.

(** C91_fausser: a Fausser shape traced with five points is a diamond. *)
Lemma diamond : exists i plasma, make_lcfs_info 3 0 3 1 0 0 0 = Ok i /\ from_parameterisation (Fausser i) [1] 5 LINEAR = Ok plasma /\
  points (map_lcfs plasma) = [(4, 0); (3, 1); (2, 0); (3, -1); (4, 0)] /\ (op_x (map_o_point plasma), op_z (map_o_point plasma)) = (3, 0).
Proof.
  assert (E : exists i, make_lcfs_info 3 0 3 1 0 0 0 = Ok i).
  { unfold make_lcfs_info. destruct (Rleb_spec 3 0); [lra|]. destruct (Rleb_spec 3 1); [lra|]. destruct (Rltb_spec 1 1); [lra|].
    destruct (Rleb_spec (-1) 0); [|lra]. destruct (Rleb_spec 0 1); [|lra]. cbn [andb negb]. rewrite Rabs_R0. destruct (Rleb_spec (3 / 3) 0); [lra|]. eauto. }
  destruct E as (i & E). assert (Sh : shape i) by (exists 3, 0, 3, 1, 0, 0, 0; exact E).
  assert (P1 : positive [1] <> []) by (unfold positive; cbn [filter]; destruct (Rltb_spec 0 1); [discriminate|lra]).
  exists i. unfold from_parameterisation. rewrite (proj1 (surface_ok (Fausser i) 1.0 5 Sh ltac:(lia))). cbn [bind].
  rewrite !make_interp_ok by (auto; lia). cbn [bind]. eexists. split; [exact E|]. split; [reflexivity|]. cbn [map_lcfs map_o_point points op_x op_z info].
  assert (F : forall t, pt_of (Fausser i) 1.0 t = (3 + cos t, sin t)).
  { intro t. unfold pt_of. rewrite fausser_eq by exact Sh. apply lcfs_inv in E. destruct E as (_ & ->). unfold fausser. cbn [r_0 z_0 aspect_ratio kappa delta shafranov_shift squareness minor_radius].
    rewrite Rabs_R0. replace (t + 0 * sin t) with t by ring. replace 1.0 with 1 by lra. f_equal; field. }
  split.
  - cbn [seq map]. rewrite !F. unfold angle. cbn [Nat.sub INR].
    replace (2 * PI * 0 / (1 + 1 + 1 + 1)) with 0 by field. replace (2 * PI * 1 / (1 + 1 + 1 + 1)) with (PI / 2) by field.
    replace (2 * PI * (1 + 1) / (1 + 1 + 1 + 1)) with PI by field. replace (2 * PI * (1 + 1 + 1) / (1 + 1 + 1 + 1)) with (3 * (PI / 2)) by field.
    replace (2 * PI * (1 + 1 + 1 + 1) / (1 + 1 + 1 + 1)) with (2 * PI) by field.
    rewrite cos_0, sin_0, cos_PI2, sin_PI2, cos_PI, sin_PI, cos_3PI2, sin_3PI2, cos_2PI, sin_2PI. repeat (f_equal; try lra).
  - apply lcfs_inv in E. destruct E as (_ & ->). cbn. rewrite Rabs_R0. f_equal. lra.
Qed.
Example C91_fausser_example : exists i plasma s ws, make_lcfs_info 3 0 3 1 0 0 0 = Ok i /\ from_parameterisation (Fausser i) [1] 5 LINEAR = Ok plasma /\
  clear_of (points (map_lcfs plasma)) (op_x (map_o_point plasma), op_z (map_o_point plasma)) (2/3) /\
  make_source nominal_masses nominal_units mpl_inside ex_heap ex_transport
    {| fm_lcfs := points (map_lcfs plasma); fm_o := (op_x (map_o_point plasma), op_z (map_o_point plasma)); fm_psi_norm := fun p => Ok (Rabs (snd p)) |}
    (SList [IStr "D-T"%string; IStr "D-D"%string]) (2/3) None MAuto = Ok (s, ws) /\
  cells s <> [] /\ rearranged (power nominal_masses) (mirror 0) s s.
Proof.
  destruct diamond as (i & plasma & Ei & Em & L & O).
  assert (Cl : clear_of [(4, 0); (3, 1); (2, 0); (3, -1); (4, 0)] (3, 0) (2/3)).
  { assert (Z : forall i, IZR i * (2/3) <> 1 /\ IZR i * (2/3) <> -1).
    { intro k. split; intro Q.
      - assert (W : IZR (2 * k) = IZR 3) by (rewrite mult_IZR; lra). apply eq_IZR in W. lia.
      - assert (W : IZR (2 * k) = IZR (-3)) by (rewrite mult_IZR; lra). apply eq_IZR in W. lia. }
    intros a b H. unfold lattice, on_curve, on_chain in H; cbn [fst snd] in H.
    destruct (Z a) as [Z5 Z6]. destruct (Z (a + b)%Z) as [Z1 Z2], (Z (a - b)%Z) as [Z3 Z4]. rewrite plus_IZR in Z1, Z2. rewrite minus_IZR in Z3, Z4.
    destruct H as [H|[H|[H|[H|[H|[]]]]]]; destruct H as (t & T & H1 & H2); cbn [fst snd] in *;
      first [apply Z1; lra|apply Z2; lra|apply Z3; lra|apply Z4; lra|apply Z5; lra]. }
  destruct C16_C17_example as (Hm & Hu & Hk & _).
  destruct (C28_total mpl_inside [(4, 0); (3, 1); (2, 0); (3, -1); (4, 0)] (3, 0) (2/3) ltac:(lra)) as [_ T]. destruct T as [cs Es]; [discriminate|].
  assert (Ne : cs <> []).
  { destruct (C29_no_cell_missed mpl_inside [(4, 0); (3, 1); (2, 0); (3, -1); (4, 0)] (3, 0) (2/3) cs ltac:(lra) mpl_inside_box Es 0%Z 0%Z) as (c & Hc & _); [|intros ->; contradiction].
    unfold lattice; cbn [fst snd]. unfold mpl_inside, crossings, crossing; cbn [fst snd].
    repeat match goal with |- context [Rleb ?a ?b] => destruct (Rleb_spec a b); try (exfalso; lra) end; cbn; reflexivity. }
  destruct (C06_constructor_succeeds nominal_masses nominal_units mpl_inside ex_heap ex_transport
    {| fm_lcfs := [(4, 0); (3, 1); (2, 0); (3, -1); (4, 0)]; fm_o := (3, 0); fm_psi_norm := fun p => Ok (Rabs (snd p)) |} (SList [IStr "D-T"%string; IStr "D-D"%string])
    (2/3) MAuto cs Hm Hu Hk) as (s & ws & E & Ec).
  - intros x [<-|[<-|[]]]; eexists; constructor; cbn; auto.
  - exact Es.
  - exact Ne.
  - intros c0 _. eexists; reflexivity.
  - intro psi. exists 10. split; [apply (ex_read 0); lia|lra].
  - intros p psi Hp. assert (p = 1%nat) as -> by (destruct Hp as [<-|[<-|[<-|[]]]]; reflexivity). exists 1e20. apply (ex_read 1). lia.
  - exists i, plasma, s, ws. split; [exact Ei|]. split; [exact Em|]. split; [rewrite L, O; exact Cl|]. split; [rewrite L, O; exact E|]. split; [rewrite Ec; exact Ne|].
    apply (fun H1 H2 H3 H4 => C91_fausser nominal_masses nominal_units ex_heap ex_transport 3 0 3 1 0 0 0 i [1] 5 LINEAR plasma (fun p => Ok (Rabs (snd p)))
      (SList [IStr "D-T"%string; IStr "D-D"%string]) (2/3) None MAuto s ws H1 H2 Ei Em H3 H4).
    + lra.
    + lia.
    + intros x z. cbn [snd]. replace (2 * 0 - z) with (- z) by ring. now rewrite Rabs_Ropp.
    + rewrite L, O. exact Cl.
    + rewrite L, O. exact E.
Qed.
