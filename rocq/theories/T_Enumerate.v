(** C61: what the enumeration of Grid.itersolve says about layouts. *)
From Coq Require Import String ZArith List Bool Lia.
From Verif Require Import Spec_Cnf Spec_Tile Spec_Layout M_Json M_Tile M_Util M_Card M_Template M_Grid M_Solve
  P_Cnf P_Util P_Card P_Tile P_Layout P_List P_Template P_Walk P_Grid P_GridSound P_GridComplete P_Transport P_Solve
  T_Grid T_Template.
Import ListNotations.
Local Open Scope string_scope.
Open Scope Z_scope.

(** Equal up to the choice of the head half of a splitter. *)
Definition same_but_head (s t : tile) : Prop :=
  match s, t with Splitter d _, Splitter e _ => d = e | _, _ => s = t end.

Lemma same_but_head_splitter s t d h : same_but_head s t -> s = Splitter d h -> exists h', t = Splitter d h'.
Proof. intros H ->. destruct t; cbn in H; try discriminate. subst. eauto. Qed.
Lemma same_but_head_sym s t : same_but_head s t -> same_but_head t s.
Proof. destruct s, t; cbn; intros; try congruence; auto. Qed.

(** On a rectangle that does not wrap, which halves are heads follows from
    where the splitters are. *)
Lemma neighbour_coords A p d q : wrapx A = false -> wrapy A = false -> neighbour A p d = Some q ->
  q = (fst p + step_x d, snd p + step_y d).
Proof.
  intros X Y. unfold neighbour, ahead, place. rewrite X, Y. destruct (insideb A _); [|discriminate]. intros E. apply Some_inj in E. subst q. cbn [fst snd]. f_equal; lia.
Qed.

Lemma head_rule A T p d h : wf_area A -> splitters_paired A T -> inside A p -> T p = Splitter d h ->
  h = match neighbour A p (clockwise d) with
      | Some q => match T q with Splitter e hq => if dir_eqb e d then negb hq else true | _ => true end
      | None => true
      end.
Proof.
  intros WA H Hp E. destruct (H p d h Hp E) as (m & Em & Tm).
  destruct h; cbn [mate_side] in Em.
  - destruct (neighbour A p (clockwise d)) as [q|] eqn:Eq; [|reflexivity].
    destruct (T q) as [| | | |e hq| |] eqn:Tq; try reflexivity.
    destruct (dir_eqb e d) eqn:Ed; [|reflexivity]. assert (e = d) by (destruct e, d; cbn in Ed; congruence). subst e.
    destruct hq; [|reflexivity]. exfalso.
    assert (Hq : inside A q) by (eapply ahead_inside; exact Eq).
    destruct (H q d true Hq Tq) as (r & Er & Tr). cbn [mate_side] in Er.
    pose proof (neighbour_back A p _ q WA Hp Eq) as B.
    assert (anticlockwise d = opposite (clockwise d)) as K by (destruct d; reflexivity). rewrite K in Er.
    assert (r = p) by congruence. subst r. rewrite E in Tr. discriminate.
  - rewrite Em, Tm. cbn. destruct d; reflexivity.
Qed.

Lemma heads_determined A T T' : wf_area A -> wrapx A = false -> wrapy A = false ->
  splitters_paired A T -> splitters_paired A T' ->
  (forall p, inside A p -> same_but_head (T p) (T' p)) ->
  forall p, inside A p -> T p = T' p.
Proof.
  intros WA X Y H H' S.
  assert (K : forall d n p, (0 <= aw A + ah A - (step_x (clockwise d) * fst p + step_y (clockwise d) * snd p) < Z.of_nat n) ->
    inside A p -> (exists h, T p = Splitter d h) -> T p = T' p).
  { intros d n. induction n as [|n IH]; intros p Hn Hp (h & E); [lia|].
    destruct (same_but_head_splitter _ _ _ _ (S p Hp) E) as (h' & E'). rewrite E, E'. f_equal.
    rewrite (head_rule A T p d h WA H Hp E), (head_rule A T' p d h' WA H' Hp E').
    destruct (neighbour A p (clockwise d)) as [q|] eqn:Eq; [|reflexivity].
    assert (Hq : inside A q) by (eapply ahead_inside; exact Eq).
    pose proof (S q Hq) as Sq. destruct (T q) as [| | | |e hq| |] eqn:Tq; destruct (T' q) as [| | | |e' hq'| |] eqn:Tq'; cbn in Sq; try discriminate Sq; try reflexivity.
    subst e'. destruct (dir_eqb e d) eqn:Ed; [|reflexivity]. assert (e = d) by (destruct e, d; cbn in Ed; congruence). subst e.
    assert (T q = T' q) as Q.
    { apply IH; [|exact Hq|eauto]. pose proof (neighbour_coords A p _ q X Y Eq) as ->. cbn [fst snd].
      destruct Hq as [Hqx Hqy]. cbn [fst snd] in Hqx, Hqy. destruct d; cbn [clockwise step_x step_y] in *; lia. }
    rewrite Tq, Tq' in Q. congruence. }
  intros p Hp. pose proof (S p Hp) as Sp. destruct (T p) as [| | | |d h| |] eqn:Tp; try (destruct (T' p); cbn in Sp; congruence).
  rewrite <- Tp. apply (K d (Z.to_nat (3 * (aw A + ah A)))); [|exact Hp|eauto].
  destruct Hp as [Hx Hy]. destruct WA. destruct d; cbn [clockwise step_x step_y]; lia.
Qed.

Lemma shows_same v v' t t' : shows v t -> shows v' t' ->
  (forall d, vi v d = vi v' d) -> (forall d, vo v d = vo v' d) -> vs v = vs v' -> same_but_head t t'.
Proof.
  intros H0 (H' & B' & E' & S' & I' & O' & Hd') Vi Vo Vs.
  assert (H1 : shows {| vb := vb v; ve := ve v; vs := vs v; vui := vui v; vuo := vuo v; vh := vh v; vinp := vinp v; voutp := voutp v;
                        vi := vi v'; vo := vo v'; vu := vu v |} t).
  { destruct H0 as [H0 K]. split; [|exact K]. cbn [vb ve vs vui vuo vh vi vo].
    destruct t as [| |i o|e []|e h|e k|x y]; try contradiction; try setoid_rewrite <- Vi; try setoid_rewrite <- Vo; exact H0. }
  clear H0. destruct H1 as (H & B & E & S & I0 & O & Hd). cbn [vb ve vs vui vuo vh vi vo] in *. rewrite Vs in S.
  destruct t as [| |i o|e b|e h|e k|x y]; try contradiction; destruct t' as [| |i' o'|e' b'|e' h'|e' k'|x' y']; try contradiction;
    try (rewrite S in S'; discriminate S'); cbn [same_but_head]; try reflexivity.
  - destruct H as (_ & H1 & H2), H' as (_ & H3 & H4 & _). specialize (H1 i'). rewrite (proj2 (H3 i') eq_refl) in H1. discriminate.
  - destruct b'; destruct H as (_ & H1 & H2), H' as (_ & H3 & H4).
    + specialize (H1 e'). rewrite (proj2 (H3 e') eq_refl) in H1. discriminate.
    + specialize (H2 e'). rewrite (proj2 (H4 e') eq_refl) in H2. discriminate.
  - destruct H as (_ & H1 & H2 & _), H' as (_ & H3 & H4). specialize (H3 i). rewrite (proj2 (H1 i) eq_refl) in H3. discriminate.
  - destruct H as (_ & H1 & H2 & _), H' as (_ & H3 & H4 & _). pose proof (proj2 (H3 i') eq_refl) as X1. pose proof (proj2 (H4 o') eq_refl) as X2.
    apply H1 in X1. apply H2 in X2. congruence.
  - destruct b'; destruct H as (_ & H1 & H2 & _), H' as (_ & H3 & H4).
    + specialize (H4 o). rewrite (proj2 (H2 o) eq_refl) in H4. discriminate.
    + specialize (H3 i). rewrite (proj2 (H1 i) eq_refl) in H3. discriminate.
  - destruct b; destruct H as (_ & H1 & H2), H' as (_ & H3 & H4).
    + specialize (H3 e). rewrite (proj2 (H1 e) eq_refl) in H3. discriminate.
    + specialize (H4 e). rewrite (proj2 (H2 e) eq_refl) in H4. discriminate.
  - destruct b; destruct H as (_ & H1 & H2), H' as (_ & H3 & H4 & _).
    + specialize (H2 o'). rewrite (proj2 (H4 o') eq_refl) in H2. discriminate.
    + specialize (H1 i'). rewrite (proj2 (H3 i') eq_refl) in H1. discriminate.
  - destruct b, b'; destruct H as (_ & H1 & H2), H' as (_ & H3 & H4).
    + f_equal. apply H3. apply H1. reflexivity.
    + specialize (H3 e). rewrite (proj2 (H1 e) eq_refl) in H3. discriminate.
    + specialize (H1 e'). rewrite (proj2 (H3 e') eq_refl) in H1. discriminate.
    + f_equal. apply H4. apply H2. reflexivity.
  - destruct H as (_ & _ & H1 & H2 & H3), H' as (_ & _ & H4 & H5 & H6). destruct H3 as [H3|H3]; [apply H4; exact H3|apply H5; exact H3].
Qed.

(** ** C61 *)
(** On a grid that does not wrap, two solutions that agree on the variables
    by which Grid.itersolve tells solutions apart have the same layout. *)
Theorem C61_layout_determined g e a a' T T' given ignore_colour vs : wf_grid g ->
  wrap_x (geo g) = false -> wrap_y (geo g) = false ->
  important_variables g given ignore_colour = Some vs ->
  solves g e a -> solves g e a' -> reads g a T -> reads g a' T' ->
  (forall v, In v vs -> a v = a' v) ->
  forall p, inside (garea g) p -> T p = T' p.
Proof.
  intros W WX WY EI (S & _) (S' & _) R R' H.
  pose proof (proj1 (solves_init_rules g a W) S) as GR. pose proof (proj1 (solves_init_rules g a' W) S') as GR'.
  assert (D : forall p, inside (garea g) p -> forall v, In v (all_direction (tile_at g p) ++ [is_splitter (tile_at g p)])%list -> evl a v = evl a' v).
  { intros p Hp v Hv. 
    assert (0 < v).
    { pose proof (tile_base_nonneg g p W Hp). destruct W as (_ & Ht & _). unfold all_direction, inputs, outputs, directions, tile_at in Hv.
      cbn [tile_vars input_dir output_dir is_splitter map app dir_value In] in Hv. intuition lia. }
    rewrite !P_Allocate.evl_pos by assumption. apply H.
    unfold important_variables in EI. destruct (_ && _); [discriminate|]. apply Some_inj in EI. subst vs.
    apply in_or_app. right. apply in_flat_map. exists p. split; [apply iterate_tiles_in; exact Hp|].
    rewrite app_assoc. apply in_or_app. left. exact Hv. }
  apply heads_determined.
  - exact (WA g W).
  - exact WX.
  - exact WY.
  - exact (sound_splitters g a T R GR).
  - exact (sound_splitters g a' T' R' GR').
  - intros p Hp.
    destruct GR as [GR _]. destruct (GR p Hp) as [TRp _]. destruct GR' as [GR' _]. destruct (GR' p Hp) as [TRp' _].
    destruct (read_tile_shows a _ TRp) as (t & Et & St). destruct (read_tile_shows a' _ TRp') as (t' & Et' & St').
    rewrite (R p Hp) in Et. rewrite (R' p Hp) in Et'. injection Et as <-. injection Et' as <-.
    apply (shows_same _ _ _ _ St St'); cbn [view_of vi vo M_Grid.is_splitter].
    + intros d. apply (D p Hp). unfold all_direction, inputs, outputs, directions. apply in_or_app. left. apply in_or_app. left. destruct d; cbn; auto.
    + intros d. apply (D p Hp). unfold all_direction, inputs, outputs, directions. apply in_or_app. left. apply in_or_app. right. destruct d; cbn; auto.
    + apply (D p Hp). apply in_or_app. right. left. reflexivity.
Qed.

(** So, with a truthful solver, on clauses that include those of the grid, the
    enumeration shows every layout that has a solution. *)
Theorem C61_every_layout_listed g e given ignore_colour vs dom solver cs : wf_grid g ->
  wrap_x (geo g) = false -> wrap_y (geo g) = false ->
  important_variables g given ignore_colour = Some vs ->
  (forall a, sat a cs = true -> solves g e a) ->
  correct_solver dom solver -> in_dom dom cs ->
  (forall v, In v vs -> In v dom) ->
  exists ms, (exists fuel, itersolve solver vs fuel cs = Some ms) /\
    forall a T, sat a cs = true -> reads g a T ->
    exists m, In m ms /\ sat (model_assignment m) cs = true /\
      forall p, inside (garea g) p -> read_tile (parse_tile (model_assignment m) (tile_at g p)) = Some (T p).
Proof.
  intros W WX WY EI HS CS D VD. destruct (C42_enumeration dom vs solver cs CS D) as (ms & E & H1 & H2 & _).
  exists ms. split; [eexists; apply E; apply le_n|]. intros a T Sa R. destruct (H2 a Sa) as (m & Hm & Sm). exists m.
  split; [exact Hm|]. destruct (H1 m Hm) as [_ Sat]. split; [exact Sat|]. intros p Hp.
  pose proof (HS _ Sat) as SM. destruct SM as (SI & SR).
  destruct (C44_decodes g (model_assignment m) W) as [_ DC]. destruct (DC SI) as (T' & R' & _).
  rewrite (R' p Hp). f_equal. symmetry.
  apply (C61_layout_determined g e a (model_assignment m) T T' given ignore_colour vs W WX WY EI (HS a Sa) (conj SI SR) R R'); [|exact Hp].
  intros v Hv. apply Sm; [apply VD; exact Hv|exact Hv].
Qed.

(** On a wrapping grid this fails: a ring of two splitter halves can be paired
    in two ways that agree on those variables. *)
Definition ring_grid : grid :=
  {| geo := {| width := 1; height := 2; wrap_x := false; wrap_y := true |}; gcolours := None; glen := Some 4; gextras := []; gtop := 0 |}.
Definition ring_assignment (swap : bool) : assignment := fun v =>
  let i := v - (if v <=? 20 then 0 else 20) in
  (i =? 3) || (i =? 7) || (i =? 9) || (i =? 13) || ((v =? 6) && swap) || ((v =? 26) && negb swap).
Theorem C61_wrapping_refuted : wf_grid ring_grid /\
  (forall swap, solves ring_grid (EFour true false true false) (ring_assignment swap) /\
     reads ring_grid (ring_assignment swap) (fun p => Splitter RIGHT (if swap then snd p =? 0 else snd p =? 1))) /\
  exists vs, important_variables ring_grid [] true = Some vs /\ Forall (fun v => ring_assignment true v = ring_assignment false v) vs.
Proof.
  split; [repeat split; cbn; lia|]. split.
  - intros swap. split.
    + split; [|split; [|split; [|split]]]; try apply check_clauses; destruct swap; vm_compute; reflexivity.
    + intros [x y] [Hx Hy]. cbn in Hx, Hy. assert (x = 0) by lia. subst x. assert (y = 0 \/ y = 1) as [-> | ->] by lia; destruct swap; vm_compute; reflexivity.
  - eexists. split; [reflexivity|]. repeat constructor.
Qed.

(** ** C62 *)
(** On a closed grid of at least two rows and columns the flags is_input and
    is_output of a tile say exactly that it takes items from, or gives items to,
    the outside. *)
Theorem C62_boundary_flags g a : wf_grid g -> solves_init g a ->
  wrap_x (geo g) = false -> wrap_y (geo g) = false -> 2 <= width (geo g) -> 2 <= height (geo g) ->
  forall p, inside (garea g) p ->
  (evl a (is_input (tile_at g p)) = true <->
     exists d, evl a (input_dir (tile_at g p) d) = true /\ neighbour (garea g) p (opposite d) = None) /\
  (evl a (is_output (tile_at g p)) = true <->
     exists d, evl a (output_dir (tile_at g p) d) = true /\ neighbour (garea g) p d = None).
Proof.
  intros W S WX WY Hw Hh p Hp. apply (solves_init_rules g a W) in S. destruct S as [S _]. destruct (S p Hp) as (_ & _ & ER & EO).
  assert (Sides : forall d, In d (in_sides g p) <-> neighbour (garea g) p (opposite d) = None).
  { intros d. destruct p as [x y]. destruct Hp as [Hx Hy]. cbn [garea area_of aw ah fst snd] in Hx, Hy.
    unfold neighbour, ahead, place, insideb. cbn [garea area_of aw ah wrapx wrapy fst snd]. rewrite WX, WY. cbn zeta. unfold in_sides.
    destruct (Z.eqb_spec x 0), (Z.eqb_spec y 0), (Z.eqb_spec x (width (geo g) - 1)), (Z.eqb_spec y (height (geo g) - 1)); try lia;
      destruct d; cbn [opposite step_x step_y fst snd]; split; intros K;
      try (cbn in K; intuition discriminate); try (cbn; tauto);
      try (destruct (_ && _) eqn:E in K; [discriminate|]; exfalso; rewrite !andb_false_iff, !Z.leb_gt, !Z.ltb_ge in E; lia);
      try (destruct (_ && _) eqn:E; [exfalso; rewrite !andb_true_iff, !Z.leb_le, !Z.ltb_lt in E; lia|reflexivity]). }
  unfold flag_rule in ER, EO. cbn [view_of vinp voutp vi vo] in ER, EO. rewrite ER, EO, !existsb_exists. split; split.
  - intros (d & Hd & Ed). exists d. split; [exact Ed|apply Sides; exact Hd].
  - intros (d & Ed & Hd). exists d. split; [apply Sides; exact Hd|exact Ed].
  - intros (d & Hd & Ed). exists d. split; [exact Ed|]. apply in_map_iff in Hd. destruct Hd as (e & <- & He). apply Sides. exact He.
  - intros (d & Ed & Hd). exists d. split; [|exact Ed]. apply in_map_iff. exists (opposite d). split; [destruct d; reflexivity|].
    apply Sides. replace (opposite (opposite d)) with d by (destruct d; reflexivity). exact Hd.
Qed.
(** On a grid of width one the right edge is overlooked: a belt that leaves
    the grid there cannot be flagged as an output. *)
Theorem C62_narrow_refuted g a p : wf_grid g -> solves_init g a -> width (geo g) = 1 -> wrap_x (geo g) = false ->
  inside (garea g) p -> evl a (output_dir (tile_at g p) RIGHT) = true ->
  neighbour (garea g) p RIGHT = None /\ evl a (is_output (tile_at g p)) = false.
Proof.
  intros W S E1 WX Hp EO. apply (solves_init_rules g a W) in S. destruct S as [S _]. destruct (S p Hp) as (TR & _ & _ & FO).
  destruct p as [x y]. destruct Hp as [Hx Hy]. cbn [garea area_of aw ah fst snd] in Hx, Hy. assert (x = 0) by lia. subst x. split.
  - unfold neighbour, ahead, place, insideb. cbn [garea area_of aw ah wrapx wrapy fst snd step_x step_y]. rewrite WX, E1. cbn [fst snd].
    replace (0 + 1 * 1 <? 1) with false by reflexivity. rewrite andb_false_r. reflexivity.
  - unfold flag_rule in FO. cbn [view_of voutp vo] in FO. rewrite FO. apply not_true_is_false. intros K. apply existsb_exists in K.
    destruct K as (d & Hd & Ed). pose proof (r_out1 _ TR d RIGHT Ed EO). subst d.
    apply in_map_iff in Hd. destruct Hd as (e & Ee & He). unfold in_sides in He. rewrite Z.eqb_refl in He.
    destruct (y =? 0), (y =? height (geo g) - 1); cbn in He; intuition (subst; discriminate).
Qed.
Example C62_narrow_example : exists a, solves_init {| geo := {| width := 1; height := 1; wrap_x := false; wrap_y := false |}; gcolours := None; glen := None; gextras := []; gtop := 0 |} a /\
  a 13 = true.
Proof. exists (fun v => (v =? 1) || (v =? 9) || (v =? 13) || (v =? 7)). split; [apply check_clauses; vm_compute; reflexivity|reflexivity]. Qed.

(** A concrete case: the layout of T_Grid.v. *)
Example C61_example : exists vs, important_variables demo_grid [] false = Some vs /\ length vs = 168%nat /\
  wrap_x (geo demo_grid) = false /\ wrap_y (geo demo_grid) = false.
Proof. eexists. split; [reflexivity|]. split; [vm_compute; reflexivity|]. split; reflexivity. Qed.

Print Assumptions C61_layout_determined.
Print Assumptions C61_every_layout_listed.
Print Assumptions C61_wrapping_refuted.
Print Assumptions C62_boundary_flags.
Print Assumptions C62_narrow_refuted.
