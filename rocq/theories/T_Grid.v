(** Property theorems C44-C51: the grid encoding of solver.py. *)
From Coq Require Import String ZArith List Bool Lia.
From Verif Require Import Spec_Cnf Spec_Tile Spec_Layout M_Json M_Tile M_Util M_Card M_Template M_Grid
  P_Cnf P_Util P_Card P_Tile P_Layout P_List P_Template P_Walk P_Grid P_GridSound P_GridComplete P_Transport.
Import ListNotations.
Local Open Scope string_scope.
Open Scope Z_scope.

(** The layout [T] is what the program reads from the assignment [a]: at every
    position read_tile returns its tile. *)
Definition reads (g : grid) (a : assignment) (T : layout) : Prop :=
  forall p, inside (garea g) p -> read_tile (parse_tile a (tile_at g p)) = Some (T p).

(** [a] satisfies the clauses of the constructor. *)
Definition solves_init (g : grid) (a : assignment) : Prop :=
  exists cs, init_clauses g = Some cs /\ sat a cs = true.
(** ... of enforce_maximum_underground_length. *)
Definition solves_length (g : grid) (a : assignment) : Prop :=
  exists cs, enforce_maximum_underground_length g = Some cs /\ sat a cs = true.
(** ... of prevent_bad_colouring. *)
Definition solves_colouring (g : grid) (a : assignment) : Prop :=
  exists cs, prevent_bad_colouring g = Some cs /\ sat a cs = true.

(** All clauses that the programs combine to describe a belt layout. *)
Definition solves (g : grid) (e : edges) (a : assignment) : Prop :=
  solves_init g a /\ sat a (prevent_intersection g) = true /\
  sat a (prevent_bad_undergrounding g) = true /\
  sat a (block_underground_through_edges g e) = true /\ solves_length g a.

Lemma solves_init_rules g a : wf_grid g -> (solves_init g a <-> grid_rules g a).
Proof.
  intros W. destruct (init_sat g W a) as (cs & E & S). unfold solves_init. split.
  - intros (cs' & E' & H). apply S. congruence.
  - intros H. exists cs. split; [exact E|]. apply S. exact H.
Qed.

(** ** C44 *)
(** The constructor succeeds, and every solution is read without error as a
    layout of belts, undergrounds, splitters and empty tiles, where exactly one
    of the five kinds holds at each tile. *)
Theorem C44_decodes g a : wf_grid g ->
  (exists cs, init_clauses g = Some cs) /\
  (solves_init g a ->
   exists T, reads g a T /\ belt_tiles (garea g) T /\
     forall p, inside (garea g) p ->
       count_true (values a (tile_type (tile_at g p))) = 1 /\
       (evl a (is_belt (tile_at g p)) = true <-> exists i o, T p = Belt i o) /\
       (evl a (is_empty (tile_at g p)) = true <-> T p = Empty) /\
       (evl a (is_splitter (tile_at g p)) = true <-> exists d h, T p = Splitter d h) /\
       (evl a (is_underground_in (tile_at g p)) = true <-> exists d, T p = Underground d true) /\
       (evl a (is_underground_out (tile_at g p)) = true <-> exists d, T p = Underground d false)).
Proof.
  intros W. split; [destruct (init_sat g W a) as (cs & E & _); eauto|].
  intros S. apply (solves_init_rules g a W) in S.
  exists (fun p => match decoded g a p with Some t => t | None => Empty end).
  assert (R : reads g a (fun p => match decoded g a p with Some t => t | None => Empty end)).
  { intros p Hp. destruct S as [S _]. destruct (read_tile_shows a (tile_at g p)) as (t & E & _); [apply S; exact Hp|].
    unfold decoded. rewrite E. reflexivity. }
  split; [exact R|]. split; [apply (sound_belt_tiles g a _ R S)|].
  intros p Hp. pose proof (T_shows g a _ R S p Hp) as (K & B & E & Sp & UI & UO & H).
  cbn [view_of vb ve vs vui vuo] in *. unfold values, tile_type. cbn [map]. rewrite B, E, Sp, UI, UO.
  destruct (match decoded g a p with Some t => t | None => Empty end) as [| |i o|f []|f h|f k|x y]; cbn in K; try contradiction;
    (split; [reflexivity|]); repeat split; intros; try discriminate; try (repeat eexists; fail);
    repeat match goal with H : exists _, _ |- _ => destruct H end; discriminate.
Qed.

(** ** C45 *)
(** set_tile accepts a tile of the belt kinds at a position of the grid; added
    to the grid's clauses it leaves exactly the solutions read as that tile. *)
Theorem C45_set_tile g a x y t : wf_grid g -> solves_init g a ->
  inside (garea g) (x, y) ->
  match t with Empty | Filler | Underground _ _ | Splitter _ _ => True | Belt i o => o <> opposite i | _ => False end ->
  exists cs, set_tile g x y t = Some cs /\
    (sat a cs = true <->
     read_tile (parse_tile a (tile_at g (x, y))) = Some (match t with Filler => Empty | _ => t end)).
Proof.
  intros W S Hp Ht. apply (solves_init_rules g a W) in S. destruct S as [S _]. destruct (S _ Hp) as [R _].
  destruct (read_tile_shows a _ R) as (t' & E & Sh). rewrite E. pose proof (tile_at_ok g _ W Hp) as Ok.
  unfold set_tile. destruct Hp as [Hx Hy]. cbn [garea area_of aw ah fst snd] in Hx, Hy.
  replace (((0 <=? x) && (0 <=? y)) && ((x <? width (geo g)) && (y <? height (geo g)))) with true
    by (symmetry; rewrite !andb_true_iff, !Z.leb_le, !Z.ltb_lt; lia).
  assert (F : forall t0, valid_tile t0 -> shows (view_of a (tile_at g (x, y))) t0 -> Some t' = Some t0).
  { intros t0 _ H. f_equal. exact (shows_unique _ _ _ Sh H). }
  assert (F' : Some t' = Some (match t with Filler => Empty | _ => t end) -> shows (view_of a (tile_at g (x, y))) (match t with Filler => Empty | _ => t end)).
  { intros [= <-]. exact Sh. }
  pose proof Sh as (K & B & Em & Sp & UI & UO & H).
  cbn [view_of vb ve vs vui vuo vh vi vo] in *.
  destruct t as [| |i o|f b|f h|f k|x' y']; try contradiction; cbn [set_tile_clauses].
  - eexists. split; [reflexivity|]. rewrite sat_one, satc_one, Em. split; [|intros [= ->]; reflexivity].
    destruct t' as [| |i o|f []|f h|f k|x' y']; try discriminate. reflexivity.
  - eexists. split; [reflexivity|]. rewrite sat_one, satc_one, Em. split; [|intros [= ->]; reflexivity].
    destruct t' as [| |i o|f []|f h|f k|x' y']; try discriminate. reflexivity.
  - eexists. split; [reflexivity|]. cbn [input_direction output_direction app]. rewrite !sat_cons_iff, sat_nil, !satc_one, B. split.
    + intros (Hb & Hi & Ho & _). destruct t' as [| |i' o'|f []|f h|f k|x' y']; try discriminate. cbn in K.
      destruct K as (_ & Ki & Ko & _). apply Ki in Hi. apply Ko in Ho. congruence.
    + intros [= ->]. cbn in K. destruct K as (_ & Ki & Ko & _). repeat split; [apply Ki|apply Ko]; reflexivity.
  - destruct b; (eexists; split; [reflexivity|]); cbn [input_direction output_direction app]; rewrite !sat_cons_iff, sat_nil, !satc_one.
    + rewrite UI. split.
      * intros (Hb & Hi & _). destruct t' as [| |i' o'|f' []|f' h|f' k|x' y']; try discriminate. cbn in K.
        destruct K as (_ & Ki & _). apply Ki in Hi. congruence.
      * intros [= ->]. cbn in K. destruct K as (_ & Ki & _). repeat split. apply Ki. reflexivity.
    + rewrite UO. split.
      * intros (Hb & Hi & _). destruct t' as [| |i' o'|f' []|f' h|f' k|x' y']; try discriminate. cbn in K.
        destruct K as (_ & _ & Ki). apply Ki in Hi. congruence.
      * intros [= ->]. cbn in K. destruct K as (_ & _ & Ki). repeat split. apply Ki. reflexivity.
  - eexists. split; [reflexivity|]. rewrite !sat_cons_iff, sat_nil, !satc_one, satc_cons_iff, satc_one, Sp.
    assert (SL : evl a (set_literal (is_splitter_head (tile_at g (x, y))) h) = true <-> evl a (is_splitter_head (tile_at g (x, y))) = h).
    { unfold set_literal. destruct h; [reflexivity|]. rewrite evl_neg by apply Ok. apply negb_true_iff. }
    rewrite SL, H. split.
    + intros (Hs & Hh & Hd & _). destruct t' as [| |i' o'|f' []|f' h'|f' k|x' y']; try discriminate. subst h'. cbn in K.
      destruct K as (_ & _ & Ki & Ko & _). do 2 f_equal; [|exact Hh]. destruct Hd as [Hd|Hd]; symmetry; auto.
    + intros [= ->]. cbn in K. destruct K as (_ & _ & _ & _ & Kd). auto 10.
Qed.
(** Other tiles and positions outside the grid are rejected. *)
Theorem C45_set_tile_rejects g x y t : wf_grid g ->
  ~ inside (garea g) (x, y) \/ match t with Inserter _ _ | Assembler _ _ => True | _ => False end ->
  set_tile g x y t = None.
Proof.
  intros W [H|H]; unfold set_tile.
  - destruct (((0 <=? x) && (0 <=? y)) && ((x <? width (geo g)) && (y <? height (geo g)))) eqn:E; [|reflexivity].
    exfalso. apply H. rewrite !andb_true_iff, !Z.leb_le, !Z.ltb_lt in E. split; cbn [garea area_of aw ah fst snd]; lia.
  - destruct (_ && _); [|reflexivity]. destruct t; try contradiction; reflexivity.
Qed.

(** ** C46 *)
Theorem C46_splitters_paired g a T : wf_grid g -> solves_init g a -> reads g a T ->
  forall p d head, inside (garea g) p -> T p = Splitter d head ->
  exists q, neighbour (garea g) p (mate_side d head) = Some q /\ T q = Splitter d (negb head) /\
    neighbour (garea g) q (mate_side d (negb head)) = Some p.
Proof.
  intros W S R p d head Hp E. apply (solves_init_rules g a W) in S.
  destruct (sound_splitters g a T R S p d head Hp E) as (q & Eq & Tq). exists q. split; [exact Eq|]. split; [exact Tq|].
  pose proof (neighbour_back _ _ _ _ (WA g W) Hp Eq) as B. rewrite <- B. f_equal. destruct d, head; reflexivity.
Qed.

(** ** C47 *)
Theorem C47_connected g a T : wf_grid g -> solves_init g a -> reads g a T ->
  sat a (prevent_intersection g) = true ->
  let A := garea g in
  (* a tile that is not a splitter pushes into a tile that takes from that direction *)
  (forall p d q, inside A p -> neighbour A p d = Some q -> ~ is_splitter_tile (T p) -> pushes (T p) d -> takes (T q) d) /\
  (* and is fed by the tile behind it *)
  (forall p d q, inside A p -> neighbour A p d = Some q -> ~ is_splitter_tile (T q) -> takes (T q) d -> pushes (T p) d) /\
  (* no belt is fed from any other side *)
  (forall p d q i o, inside A p -> neighbour A p d = Some q -> pushes (T p) d -> T q = Belt i o -> i = d) /\
  (* every splitter half is used *)
  splitters_used A T.
Proof.
  intros W S R Ix. apply (solves_init_rules g a W) in S. rewrite (intersection_sat g W a) in Ix. cbn zeta.
  pose proof (sound_outputs g a T R S Ix) as H1. pose proof (sound_inputs g W a T R S Ix) as H2.
  pose proof (sound_side g W a T R S Ix) as H3. split; [|split; [|split]].
  - intros p d q Hp En N P. exact (H1 p d q Hp P N En).
  - intros p d q Hp En N P. assert (Hq : inside (garea g) q) by (eapply ahead_inside; exact En).
    apply (H2 q d p Hq P N). apply (neighbour_back _ _ _ _ (WA g W) Hp En).
  - intros p d q i o Hp En P Tq. destruct (T p) as [| |i' o'|f []|f h|f k|x y] eqn:Tp; cbn in P; try contradiction.
    + assert (K : takes (T q) d) by (apply (H1 p d q Hp); rewrite ?Tp; auto). rewrite Tq in K. exact K.
    + assert (K : takes (T q) d) by (apply (H1 p d q Hp); rewrite ?Tp; auto). rewrite Tq in K. exact K.
    + subst f. exact (H3 p d h q i o Hp Tp En Tq).
  - apply (sound_used g W a T R S Ix).
Qed.

(** ** C48 *)
(** The bound on the hidden length: that of the grid, or the grid's size when it is infinite. *)
Theorem C48_undergrounds g a T e : wf_grid g -> solves_init g a -> reads g a T ->
  sat a (prevent_bad_undergrounding g) = true -> solves_length g a ->
  edges_cover g e -> sat a (block_underground_through_edges g e) = true ->
  let L := match glen g with Some l => l | None => Z.max (width (geo g)) (height (geo g)) - 1 end in
  entrances_paired (garea g) T L /\ exits_paired (garea g) T L.
Proof.
  intros W S R U (cs & El & Ls) EC Eb. apply (solves_init_rules g a W) in S.
  rewrite (undergrounding_sat g W a) in U. rewrite (length_sat g W a cs El) in Ls. rewrite (block_underground_sat g W a) in Eb.
  split; [exact (sound_entrances g W a T R S U Ls e EC Eb)|exact (sound_exits g W a T R S U Ls e EC Eb)].
Qed.

(** ** C49 *)
(** The edges argument blocks exactly the edges that do not wrap. *)
Definition edges_match (g : grid) (e : edges) : Prop :=
  expand_edges e = (negb (wrap_x (geo g)), negb (wrap_y (geo g)), negb (wrap_x (geo g)), negb (wrap_y (geo g))).

Lemma edges_match_cover g e : edges_match g e -> edges_cover g e.
Proof. intros E. unfold edges_cover. rewrite E. destruct (wrap_x (geo g)), (wrap_y (geo g)); cbn; intuition congruence. Qed.
Lemma edges_match_closed g e : edges_match g e -> edges_closed g e.
Proof. intros E. unfold edges_closed. rewrite E. destruct (wrap_x (geo g)), (wrap_y (geo g)); cbn; intuition congruence. Qed.

Theorem C49_solutions_are_valid_layouts g e a T : wf_grid g -> edges_cover g e ->
  solves g e a -> reads g a T -> valid_layout (garea g) T (max_hidden g).
Proof.
  intros W EC (S & Ix & U & Eb & Ls) R.
  destruct (C48_undergrounds g a T e W S R U Ls EC Eb) as [X1 X2].
  apply (solves_init_rules g a W) in S. rewrite (intersection_sat g W a) in Ix.
  repeat match goal with |- valid_layout _ _ _ => unfold valid_layout | |- _ /\ _ => split end.
  - exact (sound_belt_tiles g a T R S).
  - exact (sound_splitters g a T R S).
  - exact (sound_outputs g a T R S Ix).
  - exact (sound_inputs g W a T R S Ix).
  - exact (sound_side g W a T R S Ix).
  - exact (sound_used g W a T R S Ix).
  - exact X1.
  - exact X2.
Qed.

(** Every valid layout, with every colouring that is constant along the belts
    and tunnels, is the reading of a solution; the solution may agree with any
    given assignment on the variables of the extras and on foreign variables.
    In it every two tiles that face each other are connected, and the colour of
    a hidden belt is that of some tile, or 0. *)
Theorem C49_no_layout_lost g e T L C a0 : wf_grid g -> edges_closed g e ->
  match glen g with Some l => 1 <= l /\ L <= l | None => True end ->
  valid_layout (garea g) T L ->
  (forall p, inside (garea g) p -> match gcolours g with Some c => 0 <= C p < c | None => C p = 0 end) ->
  (forall p q, carried (garea g) T L p q -> C p = C q) ->
  exists a, solves g e a /\ solves_colouring g a /\ reads g a T /\
    (forall p, inside (garea g) p -> value a (colour (tile_at g p)) = C p) /\
    (forall v, v <= gtop g \/ gtop g + width (geo g) * height (geo g) * tile_size g < v -> a v = a0 v) /\
    (forall p v, inside (garea g) p -> extras_base g p < v <= tile_base g p + tile_size g -> a v = a0 v) /\
    (forall p d, inside (garea g) p ->
      (evl a (input_dir (tile_at g p) d) = true <-> takes (T p) d /\ forall q, neighbour (garea g) p (opposite d) = Some q -> pushes (T q) d) /\
      (evl a (output_dir (tile_at g p) d) = true <-> pushes (T p) d /\ forall q, neighbour (garea g) p d = Some q -> takes (T q) d)) /\
    (forall p c, inside (garea g) p -> c = value a (colour_ux (tile_at g p)) \/ c = value a (colour_uy (tile_at g p)) ->
      c = 0 \/ exists q, inside (garea g) q /\ c = C q).
Proof.
  intros W EC HL VL HC HD.
  assert (CH : forall p q, hands_on (garea g) T p q -> C p = C q) by (intros p q H; apply HD; eapply carried_belt; [exact H|constructor]).
  assert (CU : forall p q, sends_under (garea g) T L p q -> C p = C q) by (intros p q H; apply HD; eapply carried_under; [exact H|constructor]).
  pose proof W as ((Ww & Wh) & _ & Wc & _).
  assert (HC2 : forall p, inside (garea g) p -> 0 <= C p < 2 ^ Z.of_nat (colour_bits g)).
  { intros p Hp. specialize (HC p Hp). unfold colour_bits. destruct (gcolours g) as [c|]; [|rewrite HC; cbn; lia].
    pose proof (colour_fits c Wc). lia. }
  set (a := layout_assignment g T L C (colour_x g T L C) (colour_y g T L C) a0).
  exists a. split; [|split; [|split; [|split; [|split; [|split; [|split]]]]]].
  - split; [|split; [|split; [|split]]].
    + apply solves_init_rules; [exact W|]. apply layout_grid_rules; auto. intros c p Ec Hp.
      assert (HC' : forall p, inside (garea g) p -> 0 <= C p < c) by (intros r Hr; specialize (HC r Hr); rewrite Ec in HC; exact HC).
      assert (Hz : 0 <= 0 < c) by (specialize (HC' p Hp); lia).
      split; [auto|]. split; apply tunnel_quantity_range; auto.
    + apply (intersection_sat g W a). intros p d Hp. apply layout_link_rule; auto.
    + apply (undergrounding_sat g W a). intros p d Hp. apply layout_under_rule; auto.
    + apply (block_underground_sat g W a). apply layout_edge_under_rule; auto.
    + unfold solves_length. destruct (enforce_maximum_underground_length g) as [cs|] eqn:E.
      * exists cs. split; [reflexivity|]. apply (length_sat g W a cs E). apply layout_length_rule; auto.
        intros l El. rewrite El in HL. apply HL.
      * exfalso. unfold enforce_maximum_underground_length in E. destruct (glen g) as [l|]; [|discriminate].
        destruct HL as [HL _]. apply Z.leb_le in HL. rewrite HL in E. discriminate.
  - unfold solves_colouring, prevent_bad_colouring. destruct (gcolours g) as [c|] eqn:Ec; [|exists []; split; reflexivity].
    destruct (c =? 1); [exists []; split; reflexivity|].
    destruct (transport_sat g W a (fun p => colour (tile_at g p)) (fun p => colour_ux (tile_at g p)) (fun p => colour_uy (tile_at g p)) (colour_bits g)) as (cs & E & S).
    + intros p Hp. split; [apply fresh_length|apply (tile_at_ok g p W Hp)].
    + intros p Hp. split; [apply fresh_length|apply (tile_at_ok g p W Hp)].
    + intros p Hp. split; [apply fresh_length|apply (tile_at_ok g p W Hp)].
    + exists cs. split; [exact E|]. apply S. intros p d Hp. apply layout_transport_rule; auto.
  - intros p Hp. apply (decode_layout g W T L); auto.
  - intros p Hp. destruct (layout_colours g W T L C (colour_x g T L C) (colour_y g T L C) a0 p Hp) as [V _]. auto.
  - intros v [Hv|Hv]; [apply table_low|apply table_high]; exact Hv.
  - intros p v Hp Hv. unfold extras_base in Hv.
    replace v with (tile_base g p + 1 + (v - tile_base g p - 1)) by lia. apply table_extras; auto; lia.
  - intros p d Hp. destruct (view_layout g W T L C (colour_x g T L C) (colour_y g T L C) a0 p Hp) as (_ & _ & _ & _ & _ & _ & _ & _ & Vi & Vo & _).
    change (evl a (input_dir (tile_at g p) d)) with (vi (view_of a (tile_at g p)) d). change (evl a (output_dir (tile_at g p) d)) with (vo (view_of a (tile_at g p)) d).
    unfold a. rewrite Vi, Vo. unfold f_in, f_out. rewrite !andb_true_iff, takesb_iff, pushesb_iff. split; (split; intros [H1 H2]; (split; [exact H1|])).
    + intros q E. rewrite E in H2. apply pushesb_iff. exact H2.
    + destruct (neighbour (garea g) p (opposite d)) as [q|]; [apply pushesb_iff; auto|reflexivity].
    + intros q E. rewrite E in H2. apply takesb_iff. exact H2.
    + destruct (neighbour (garea g) p d) as [q|]; [apply takesb_iff; auto|reflexivity].
  - intros p c Hp Hc. destruct (layout_colours g W T L C (colour_x g T L C) (colour_y g T L C) a0 p Hp) as (_ & Vx & Vy).
    assert (Hz : 0 < 2 ^ Z.of_nat (colour_bits g)) by (apply Z.pow_pos_nonneg; lia).
    assert (X : forall ds, tunnel_quantity (garea g) T L Z C 0 ds p = 0 \/ exists q, inside (garea g) q /\ tunnel_quantity (garea g) T L Z C 0 ds p = C q).
    { intros ds. unfold tunnel_quantity. destruct (exitb _ _); [right; eauto|].
      assert (B : forall d, match back_entrance (garea g) T L p d with Some e => C e | None => 0 end = 0 \/ exists q, inside (garea g) q /\ match back_entrance (garea g) T L p d with Some e => C e | None => 0 end = C q).
      { intros d. destruct (back_entrance (garea g) T L p d) as [e'|] eqn:E; [|left; reflexivity]. right. exists e'. split; [|reflexivity].
        unfold back_entrance in E. destruct (find _ _); [|discriminate]. eapply ahead_inside. exact E. }
      destruct (f_under _ _ _ _ _); [apply B|]. destruct (f_under _ _ _ _ _); [apply B|]. left. reflexivity. }
    assert (Y : forall ds, 0 <= tunnel_quantity (garea g) T L Z C 0 ds p < 2 ^ Z.of_nat (colour_bits g)).
    { intros ds. apply tunnel_quantity_range; auto. lia. }
    destruct Hc as [-> | ->]; [unfold a; rewrite Vx by apply Y|unfold a; rewrite Vy by apply Y]; apply X.
Qed.

(** Together: the layouts read from solutions are exactly the valid ones, so
    "unsatisfiable" means that no valid layout exists. *)
Theorem C49_solutions_iff g e T : wf_grid g -> edges_match g e ->
  match glen g with Some l => 1 <= l | None => True end ->
  (valid_layout (garea g) T (max_hidden g) <-> exists a, solves g e a /\ reads g a T).
Proof.
  intros W M HL. split.
  - intros VL. destruct (C49_no_layout_lost g e T (max_hidden g) (fun _ => 0) (fun _ => false) W (edges_match_closed g e M)) as (a & H & _ & R & _); auto.
    + unfold max_hidden. destruct (glen g); [lia|exact Logic.I].
    + intros p _. pose proof W as (_ & _ & Wc & _). destruct (gcolours g); lia.
    + eauto.
  - intros (a & S & R). apply (C49_solutions_are_valid_layouts g e a T W (edges_match_cover g e M) S R).
Qed.

(** ** C50 *)
(** The allowed tiles at a blocked edge, facing out in direction [d]: nothing
    comes in, nothing goes out, and no tunnel points through the edge. *)
Definition closed_at (t : tile) (d : dir) : Prop :=
  ~ takes t (opposite d) /\ ~ pushes t d /\ t <> Underground d true /\ t <> Underground (opposite d) false.

Definition on_edge (g : grid) (e : edges) (p : pos) (d : dir) : Prop :=
  let '(min_x, min_y, max_x, max_y) := expand_edges e in
  match d with
  | LEFT => min_x = true /\ fst p = 0
  | RIGHT => max_x = true /\ fst p = width (geo g) - 1
  | UP => min_y = true /\ snd p = 0
  | DOWN => max_y = true /\ snd p = height (geo g) - 1
  end.

Theorem C50_block_belts g a e T : wf_grid g -> solves_init g a -> reads g a T ->
  (sat a (block_belts_through_edges g e) = true <->
   forall p d, inside (garea g) p -> on_edge g e p d -> closed_at (T p) d).
Proof.
  intros W S R. apply (solves_init_rules g a W) in S. rewrite (block_belts_sat g W a).
  assert (X : forall p d, inside (garea g) p ->
    ((vi (view_of a (tile_at g p)) (opposite d) = false /\ vo (view_of a (tile_at g p)) d = false) /\
      (vi (view_of a (tile_at g p)) d = true -> exists f, vo (view_of a (tile_at g p)) f = true) /\
      (vo (view_of a (tile_at g p)) (opposite d) = true -> exists f, vi (view_of a (tile_at g p)) f = true)) <-> closed_at (T p) d).
  { intros p d Hp. pose proof (T_shows g a T R S p Hp) as Sh. unfold closed_at.
    pose proof (shows_takes _ _ d Sh) as K1. pose proof (shows_takes _ _ (opposite d) Sh) as K2.
    pose proof (shows_pushes _ _ d Sh) as K3. pose proof (shows_pushes _ _ (opposite d) Sh) as K4.
    set (v := view_of a (tile_at g p)) in *. clearbody v. destruct Sh as [K _].
    assert (Bf : forall b : bool, ~ b = true -> b = false) by (intros []; congruence).
    destruct (T p) as [| |i o|f []|f h|f k|x y]; cbn in K; try contradiction; cbn [takes pushes] in *.
    - destruct K as (_ & Ki & Ko). rewrite !Ki, !Ko. split; [intros _; repeat split; try tauto; discriminate|].
      intros _. repeat split; congruence.
    - destruct K as (_ & Ki & Ko & N). split.
      + intros ((H1 & H2) & _). repeat split; try discriminate.
        * intros ->. rewrite (proj2 (Ki _) eq_refl) in H1. discriminate.
        * intros ->. rewrite (proj2 (Ko _) eq_refl) in H2. discriminate.
      + intros (H1 & H2 & _). repeat split.
        * apply Bf. intros C. apply H1. auto.
        * apply Bf. intros C. apply H2. auto.
        * intros _. exists o. apply Ko. reflexivity.
        * intros _. exists i. apply Ki. reflexivity.
    - destruct K as (_ & Ki & Ko). split.
      + intros ((H1 & H2) & H3 & _). repeat split; try tauto; try discriminate.
        * intros ->. rewrite (proj2 (Ki _) eq_refl) in H1. discriminate.
        * intros [= ->]. destruct H3 as [f' C]; [apply Ki; reflexivity|]. rewrite Ko in C. discriminate.
      + intros (H1 & _ & H3 & _). repeat split.
        * apply Bf. intros C. apply H1. auto.
        * apply Ko.
        * intros C. exfalso. apply H3. rewrite (K1 C). reflexivity.
        * rewrite Ko. discriminate.
    - destruct K as (_ & Ki & Ko). split.
      + intros ((H1 & H2) & _ & H3). repeat split; try tauto; try discriminate.
        * intros ->. rewrite (proj2 (Ko _) eq_refl) in H2. discriminate.
        * intros [= ->]. destruct H3 as [f' C]; [apply Ko; reflexivity|]. rewrite Ki in C. discriminate.
      + intros (_ & H1 & _ & H3). repeat split.
        * apply Ki.
        * apply Bf. intros C. apply H1. auto.
        * rewrite Ki. discriminate.
        * intros C. exfalso. apply H3. rewrite (K4 C). reflexivity.
    - destruct K as (_ & _ & Ki & Ko & Kd). split.
      + intros ((H1 & H2) & H3 & H4). repeat split; try discriminate.
        * intros ->. destruct Kd as [C|C]; [congruence|]. destruct (H4 C) as [f' C']. rewrite <- (Ki f' C') in H1. congruence.
        * intros ->. destruct Kd as [C|C]; [|congruence]. destruct (H3 C) as [f' C']. rewrite <- (Ko f' C') in H2. congruence.
      + intros (H1 & H2 & _). repeat split.
        * apply Bf. intros C. apply H1. auto.
        * apply Bf. intros C. apply H2. auto.
        * intros C. exfalso. apply H2. apply K1. exact C.
        * intros C. exfalso. apply H1. apply K4. exact C. }
  unfold edge_belt_rule. change (at_edge g e) with (on_edge g e). split; intros H p d Hp He; apply X; auto.
Qed.

(** ** C51 *)
Theorem C51_colour_transported g e a T c L : wf_grid g -> edges_cover g e ->
  solves g e a -> solves_colouring g a -> reads g a T -> gcolours g = Some c ->
  (forall p, inside (garea g) p -> 0 <= value a (colour (tile_at g p)) < c) /\
  (forall p q, inside (garea g) p -> carried (garea g) T L p q -> value a (colour (tile_at g p)) = value a (colour (tile_at g q))).
Proof.
  intros W EC (S & Ix & U & Eb & Ls) SC R Ec. apply (solves_init_rules g a W) in S. split.
  - intros p Hp. destruct S as [S _]. destruct (S p Hp) as (_ & C & _). unfold colour_rule in C. rewrite Ec in C.
    split; [apply value_nonneg|apply C].
  - rewrite (undergrounding_sat g W a) in U. destruct Ls as (cs & El & Ls). rewrite (length_sat g W a cs El) in Ls.
    rewrite (block_underground_sat g W a) in Eb. destruct SC as (cc & Ecc & Scc). unfold prevent_bad_colouring in Ecc. rewrite Ec in Ecc.
    intros p q Hp H. revert Ecc. destruct (Z.eqb_spec c 1) as [->|N]; intros Ecc.
    + assert (Hq : inside (garea g) q).
      { induction H as [p|p q r (_ & _ & d & _ & E) _ IH|p q r (_ & d & _ & _ & k & _ & E & _) _ IH]; auto; apply IH; eapply ahead_inside; exact E. }
      destruct S as [S _]. destruct (S p Hp) as (_ & Cp & _). destruct (S q Hq) as (_ & Cq & _).
      unfold colour_rule in Cp, Cq. rewrite Ec in Cp, Cq. pose proof (value_nonneg a (colour (tile_at g p))). pose proof (value_nonneg a (colour (tile_at g q))). lia.
    + destruct (transport_sat g W a (fun p => colour (tile_at g p)) (fun p => colour_ux (tile_at g p)) (fun p => colour_uy (tile_at g p)) (colour_bits g)) as (cs' & E & St).
      * intros r Hr. split; [apply fresh_length|apply (tile_at_ok g r W Hr)].
      * intros r Hr. split; [apply fresh_length|apply (tile_at_ok g r W Hr)].
      * intros r Hr. split; [apply fresh_length|apply (tile_at_ok g r W Hr)].
      * assert (cs' = cc) by (apply Some_inj; transitivity (transport_quantity g (fun p => colour (tile_at g p)) (fun p => colour_ux (tile_at g p)) (fun p => colour_uy (tile_at g p))); [symmetry; exact E|exact Ecc]). subst cs'. pose proof (proj1 St Scc) as TR.
        exact (carried_same g W a T R S U _ _ _ TR L p q H).
Qed.

(** * A concrete layout that meets all the hypotheses *)
(** A splitter feeding a belt above and a tunnel below, on a 7 x 2 grid with
    two colours and underground length 4. *)
Definition demo_grid : grid :=
  {| geo := {| width := 7; height := 2; wrap_x := false; wrap_y := false |}; gcolours := Some 2; glen := Some 4;
     gextras := [("level", TSized (Number false) 2)]; gtop := 3 |}.
Definition demo_layout (p : pos) : tile :=
  match p with
  | (0, 0) => Belt RIGHT RIGHT
  | (1, 0) => Splitter RIGHT false
  | (1, 1) => Splitter RIGHT true
  | (2, 0) => Belt RIGHT RIGHT
  | (3, 0) => Belt RIGHT UP
  | (2, 1) => Underground RIGHT true
  | (5, 1) => Underground RIGHT false
  | (6, 1) => Belt RIGHT UP
  | (6, 0) => Belt UP RIGHT
  | _ => Empty
  end.
Definition demo_colour (p : pos) : Z := if fst p <? 2 then 0 else if snd p =? 1 then 1 else if fst p =? 6 then 1 else 0.
Definition demo_assignment : assignment :=
  layout_assignment demo_grid demo_layout 4 demo_colour
    (colour_x demo_grid demo_layout 4 demo_colour) (colour_y demo_grid demo_layout 4 demo_colour) (fun v => v =? 2).
Example demo_wf : wf_grid demo_grid /\ edges_match demo_grid (EBool true).
Proof. repeat split; cbn; lia. Qed.
Lemma check_clauses (o : option cnf) a : match o with Some cs => sat a cs | None => false end = true ->
  exists cs, o = Some cs /\ sat a cs = true.
Proof. destruct o as [cs|]; [eauto|discriminate]. Qed.
Example demo_solves : solves demo_grid (EBool true) demo_assignment /\ solves_colouring demo_grid demo_assignment.
Proof.
  split; [split; [|split; [|split; [|split]]]|]; try apply check_clauses; vm_compute; reflexivity.
Qed.
Definition tile_eq_dec (s t : tile) : {s = t} + {s <> t}.
Proof. decide equality; try apply Z.eq_dec; try apply Bool.bool_dec; decide equality. Defined.
Example demo_reads : reads demo_grid demo_assignment demo_layout.
Proof.
  assert (X : forallb (fun p => match decoded demo_grid demo_assignment p with Some t => if tile_eq_dec t (demo_layout p) then true else false | None => false end)
    (iterate_tiles (geo demo_grid)) = true) by (vm_compute; reflexivity).
  intros p Hp. rewrite forallb_forall in X. specialize (X p (proj2 (iterate_tiles_in _ _) Hp)).
  unfold decoded in X. destruct (read_tile _) as [t|]; [|discriminate]. destruct (tile_eq_dec t (demo_layout p)); [congruence|discriminate].
Qed.
Example demo_valid : valid_layout (garea demo_grid) demo_layout 4.
Proof.
  exact (C49_solutions_are_valid_layouts demo_grid (EBool true) demo_assignment demo_layout (proj1 demo_wf)
    (edges_match_cover _ _ (proj2 demo_wf)) (proj1 demo_solves) demo_reads).
Qed.
Example demo_carried : carried (garea demo_grid) demo_layout 4 (2, 1) (6, 0).
Proof.
  eapply carried_under with (q := (5, 1)).
  - split; [split; cbn; lia|]. exists RIGHT. split; [reflexivity|]. split; [reflexivity|]. exists 3. split; [lia|]. split; [reflexivity|].
    intros j Hj. assert (j = 1 \/ j = 2) as [-> | ->] by lia; eexists; (split; [reflexivity|cbn; tauto]).
  - eapply carried_belt with (q := (6, 1)); [split; [split; cbn; lia|]; split; [cbn; tauto|]; exists RIGHT; split; reflexivity|].
    eapply carried_belt with (q := (6, 0)); [split; [split; cbn; lia|]; split; [cbn; tauto|]; exists UP; split; reflexivity|].
    constructor.
Qed.
(** An invalid layout has no solution: the belt at the end of the row pushes into nothing that takes it. *)
Example demo_invalid : ~ exists a, solves demo_grid (EBool true) a /\
  reads demo_grid a (fun p => match p with (0, 0) => Belt RIGHT RIGHT | (1, 0) => Belt UP UP | _ => Empty end).
Proof.
  rewrite <- (C49_solutions_iff demo_grid (EBool true) _ (proj1 demo_wf) (proj2 demo_wf)) by (cbn; lia).
  intros (_ & _ & H & _). specialize (H (0, 0) RIGHT (1, 0)). cbn in H. discriminate H; try reflexivity; try (split; cbn; lia); tauto.
Qed.
Example C45_example : exists cs, set_tile demo_grid 1 1 (Splitter RIGHT true) = Some cs /\ sat demo_assignment cs = true /\
  set_tile demo_grid 7 0 Empty = None.
Proof. eexists. split; [reflexivity|]. split; vm_compute; reflexivity. Qed.
Example C50_example : sat demo_assignment (block_belts_through_edges demo_grid (EFour false true false true)) = false /\
  sat demo_assignment (block_belts_through_edges demo_grid (EFour false false false true)) = true.
Proof. split; vm_compute; reflexivity. Qed.

Print Assumptions C44_decodes.
Print Assumptions C45_set_tile.
Print Assumptions C45_set_tile_rejects.
Print Assumptions C46_splitters_paired.
Print Assumptions C47_connected.
Print Assumptions C48_undergrounds.
Print Assumptions C49_solutions_are_valid_layouts.
Print Assumptions C49_no_layout_lost.
Print Assumptions C49_solutions_iff.
Print Assumptions C50_block_belts.
Print Assumptions C51_colour_transported.
