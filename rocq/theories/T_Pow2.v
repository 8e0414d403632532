(** Property theorems C79 to C81: the inner part of the balancers that
    belt_balancer_net_free_power_of_2.py finds. *)
From Coq Require Import String ZArith QArith List Bool Lia.
From Verif Require Import Spec_Cnf Spec_Tile Spec_Layout M_Json M_Tile M_Util M_Card M_Network Spec_Network M_Template M_Grid M_Oracle M_Balancer M_Optimise M_NetFree M_Pow2
  Spec_Balancer Spec_Flow Spec_Pow2 P_Cnf P_Util P_Tile P_Layout P_Template P_Grid P_GridSound P_GridComplete T_Grid P_GridOk P_Gen P_Trace P_Uniq P_FlowWitness
  P_Allocate P_NetEnds P_NetShape P_NetFree P_NetVars P_Pow2 P_Pow2Flow P_Frame P_Pow2Frame P_Pow2Total T_NetDemo.
Import ListNotations.
Local Open Scope string_scope.
Open Scope Z_scope.

(** [solves_pow2 E w h ul g a] (P_Pow2Flow): the assignment [a] satisfies the
    clauses that main builds for the grid [g] of width [w] and [h] rows, which is
    the size of the balancer.  [E] is the library of cardinality encodings. *)

(** ** C79: the shape of the layout *)
(** What belt_balancer_net_free_power_of_2.py calls tile.level and
    tile.level_primary are the variables the template makes. *)
Theorem C79_variables w h ul x y : 0 < w -> 0 < h -> match ul with Some l => 0 <= l | None => True end ->
  let g := pow2_grid w h ul in
  inside (garea g) (x, y) ->
  exists fields, tile_instance (grid_tiles g) x y = Some (IRec fields) /\
    assoc "level" fields = Some (IList (map ILit (level g (levels h) (x, y)))) /\
    assoc "level_primary" fields = Some (IList (map ILit (level_primary g (levels h) (x, y)))).
Proof.
  intros Hw Hh Hu g Hp. pose proof (pow2_wf w h ul Hw Hh Hu) as W. destruct (Hp) as [Hx Hy]. cbn [garea area_of aw ah fst snd] in Hx, Hy.
  unfold grid_tiles. rewrite tile_instance_spec by assumption.
  change (gtop g + (y * width (geo g) + x) * Z.of_nat (variable_count (tile_template g))) with (tile_base g (x, y)). rewrite instantiate_tile.
  change (tile_base g (x, y) + 20 + 3 * Z.of_nat (colour_bits g)) with (extras_base g (x, y)).
  eexists. split; [reflexivity|]. split; reflexivity.
Qed.

(** The layout is valid.  Items enter at every cell of the first column and
    leave at every cell of the last one, both columns are straight belts, and
    items enter or leave nowhere else.  All four sides of a splitter are
    connected. *)
Theorem C79_layout E w h ul g a T : honest E -> solves_pow2 E w h ul g a -> reads g a T ->
  valid_layout (garea g) T (max_hidden g) /\
  (forall y, 0 <= y < h -> T (0, y) = Belt RIGHT RIGHT /\ T (w - 1, y) = Belt RIGHT RIGHT) /\
  inlets (garea g) T (rows 0 0 h) /\ outlets (garea g) T (rows (w - 1) 0 h) /\
  forall p, inside (garea g) p -> is_splitter_tile (T p) -> exit_used (garea g) T (max_hidden g) p /\ entrance_used (garea g) T (max_hidden g) p.
Proof.
  intros HE Sol R. destruct (pow2_known E w h ul g a HE Sol) as [-> PF]. split; [exact (p2_valid w h ul a PF T R)|].
  split; [intros y Hy; split; [exact (p2_left w h ul a PF T R y Hy)|exact (p2_right w h ul a PF T R y Hy)]|].
  split; [exact (p2_inlets w h ul a PF T R)|]. split; [exact (p2_outlets w h ul a PF T R)|exact (p2_used w h ul a PF T R)].
Qed.

(** ** C80: what the layout does *)
(** The colour of a tile, read as a set of pairs of input rows. *)
Definition holds (g : grid) (a : assignment) (p : pos) (c : Z) : bool := Z.testbit (value a (colour (tile_at g p))) c.
Definition size_of (g : grid) (a : assignment) (p : pos) : Z := count_true (values a (colour (tile_at g p))).

(** The sets do not change along lines of belts and tunnels.  Both outputs of a
    splitter carry the union of the sets at its inputs, which are disjoint and
    equally large.  The set of input row [y] is [{y / 2}].  At the outputs every
    set has a quarter of the size, and the sets of the rows [2 y] and [2 y + 1]
    are complements. *)
Theorem C80_sets E w h ul g a T : honest E -> solves_pow2 E w h ul g a -> reads g a T ->
  (forall p q, carried (garea g) T (max_hidden g) p q -> forall c, 0 <= c -> holds g a p c = holds g a q c) /\
  (forall s, is_splitter_at (garea g) T s -> exists d p q, T (fst s) = Splitter d true /\
     neighbour (garea g) (fst s) d = Some p /\ neighbour (garea g) (snd s) d = Some q /\
     size_of g a (fst s) = size_of g a (snd s) /\
     forall c, 0 <= c < h / 2 -> holds g a (fst s) c && holds g a (snd s) c = false /\
       holds g a p c = holds g a (fst s) c || holds g a (snd s) c /\ holds g a q c = holds g a (fst s) c || holds g a (snd s) c) /\
  (forall y c, 0 <= y < h -> 0 <= c -> holds g a (0, y) c = (c =? y / 2)) /\
  (forall y, 0 <= y < h -> 4 * size_of g a (w - 1, y) = h) /\
  (forall y c, 0 <= y < h / 2 -> 0 <= c < h / 2 -> holds g a (w - 1, 2 * y + 1) c = negb (holds g a (w - 1, 2 * y) c)).
Proof.
  intros HE Sol R. destruct (pow2_known E w h ul g a HE Sol) as [-> PF]. set (g := pow2_grid w h ul).
  assert (K : forall p c, 0 <= c -> holds g a p c = bit_at a (colour (tile_at g p)) (Z.to_nat c)).
  { intros p c Hc. unfold holds. rewrite <- (Z2Nat.id c Hc) at 1. apply value_testbit. }
  pose proof (p2_bits w h ul a PF T R) as [B1 B2]. fold g in B1.
  split; [|split; [|split; [|split]]].
  - intros p q C c Hc. rewrite !K by exact Hc. apply (p2_carried w h ul a PF T R p q C).
  - intros s Hs. destruct (p2_splitter w h ul a PF T R s Hs) as (d & p10 & p11 & i & T1 & T2 & _ & _ & _ & _ & N1 & N2 & _ & _ & _ & C1 & C2 & _ & _ & J).
    exists d, p10, p11. split; [exact T1|]. split; [exact N1|]. split; [exact N2|]. split; [exact (eq_trans C1 (eq_sym C2))|]. intros c Hc. rewrite !K by lia. apply J. fold g. lia.
  - intros y c Hy Hc. rewrite K by exact Hc. etransitivity; [exact (p2_source w h ul a PF y (Z.to_nat c) Hy)|]. rewrite Z2Nat.id by exact Hc. reflexivity.
  - intros y Hy. destruct (p2_size w h ul a PF T R) as (_ & Eh & Sz). rewrite Eh. f_equal. exact (Sz y Hy).
  - intros y c Hy Hc. rewrite !K by lia. apply (p2_pair w h ul a PF y (Z.to_nat c) Hy). fold g. lia.
Qed.

(** In every steady flow in which the two rows of each pair carry the same, every
    output carries the average, over its set, of what a row of a pair carries. *)
Theorem C80_flow E w h ul g a T into from y : honest E -> solves_pow2 E w h ul g a -> reads g a T ->
  steady_flow (garea g) T (max_hidden g) into from ->
  (forall c, 0 <= c < h / 2 -> (into (Enter (0, 2 * c)%Z) == into (Enter (0, 2 * c + 1)%Z))%Q) ->
  0 <= y < h ->
  (inject_Z (size_of g a (w - 1, y)%Z) * from (Leave (w - 1, y)%Z) ==
   fold_right Qplus 0 (map (fun c => if holds g a (w - 1, y)%Z (Z.of_nat c) then into (Enter (0, 2 * Z.of_nat c)%Z) else 0) (seq 0 (Z.to_nat (h / 2)))))%Q.
Proof.
  intros HE Sol R St Eq Hy. destruct (pow2_known E w h ul g a HE Sol) as [-> PF].
  destruct (p2_size w h ul a PF T R) as (_ & Eh & Sz). pose proof (p2_bits w h ul a PF T R) as [B1 B2].
  assert (Ez : size_of (pow2_grid w h ul) a (w - 1, y) = 2 ^ Z.of_nat (levels h)) by exact (Sz y Hy). rewrite Ez.
  rewrite (p2_flow w h ul a PF T R into from St Eq y Hy). unfold holds. rewrite <- B1, Nat2Z.id. apply qsum_ext. intros c _. rewrite value_testbit. reflexivity.
Qed.

(** With a column of splitters on either side, as the program announces, the
    layout is valid and balanced: whatever enters leaves in equal parts. *)
Theorem C80_balanced E w h ul g a T : honest E -> solves_pow2 E w h ul g a -> reads g a T ->
  let B := {| aw := w + 4; ah := h; wrapx := false; wrapy := false |} in
  valid_layout B (framed w T) (max_hidden g) /\ balanced_layout B (framed w T) (max_hidden g) /\
  inlets B (framed w T) (rows 0 0 h) /\ outlets B (framed w T) (rows (w + 3) 0 h).
Proof.
  intros HE Sol R B. destruct (pow2_known E w h ul g a HE Sol) as [-> PF].
  pose proof (fr_w w h ul a PF) as Hw. pose proof (fr_h w h ul a PF T R) as Hh.
  split; [exact (fr_valid w h ul a PF T R)|]. split; [exact (fr_balanced w h ul a PF T R)|]. split; (split; [apply rows_NoDup|]); intros p; rewrite rows_in by lia.
  - unfold B. rewrite (framed_inlet w h T (max_hidden (pow2_grid w h ul)) Hw (p2_left w h ul a PF T R) (fr_in w h ul a PF T R) p). lia.
  - unfold B. rewrite (framed_outlet w h T (max_hidden (pow2_grid w h ul)) Hw (p2_right w h ul a PF T R) (fr_out w h ul a PF T R) p). lia.
Qed.

(** ** C81: sizes *)
(** A solution has half the size times (log2 size - 2) splitters; with the two
    columns of [C80_balanced] these are size / 2 * log2 size. *)
Theorem C81_number E w h ul g a T sp : honest E -> solves_pow2 E w h ul g a -> reads g a T ->
  NoDup sp -> (forall s, In s sp <-> is_splitter_at (garea g) T s) ->
  Z.of_nat (List.length sp) = h / 2 * (Z.log2 h - 2).
Proof.
  intros HE Sol R Nd Hs. destruct (pow2_known E w h ul g a HE Sol) as [-> PF]. rewrite (p2_number w h ul a PF T R sp Nd Hs). f_equal.
  destruct (p2_size w h ul a PF T R) as (H4 & _ & _). unfold levels. pose proof (Z.log2_le_mono 4 h H4) as L. change (Z.log2 4) with 2 in L. lia.
Qed.
(** There are solutions for powers of two from 4 on only. *)
Theorem C81_sizes E w h ul g a : honest E -> solves_pow2 E w h ul g a -> 0 < w /\ 4 <= h /\ exists j, 0 <= j /\ h = 2 ^ j.
Proof.
  intros HE Sol. destruct (pow2_known E w h ul g a HE Sol) as [-> PF]. split; [exact (pf_w _ _ _ _ PF)|].
  destruct (C44_decodes (pow2_grid w h ul) a) as [_ D].
  { destruct (pf_pow _ _ _ _ PF) as (j & Hj & Ej). apply (pow2_wf w h ul (pf_w _ _ _ _ PF)); [rewrite Ej; apply Z.pow_pos_nonneg; lia|exact (pf_ul _ _ _ _ PF)]. }
  destruct D as (T & R & _); [exact (pr_init _ _ _ _ (pf_rules _ _ _ _ PF))|]. split; [apply (p2_size w h ul a PF T R)|].
  destruct (pf_pow _ _ _ _ PF) as (j & Hj & Ej). exists j. split; [lia|exact Ej].
Qed.
(** For a size that is no power of two, and for 1, main raises; for the other
    sizes it builds its clauses.  For 2 there is no solution (C81_sizes). *)
Theorem C81_raises E w h ul : (h <= 1 \/ w <= 0 \/ forall j, 0 <= j -> h <> 2 ^ j) -> power_of_two E w h ul = None.
Proof.
  intros H. unfold power_of_two. assert (N : create_pow2 E w h ul = None); [|rewrite N; reflexivity].
  destruct (Z.eq_dec h 1) as [->|N1]; [apply one_row_none|]. unfold create_pow2.
  destruct (Z.ltb_spec 0 w); [|reflexivity]. destruct (Z.ltb_spec 0 h); [|reflexivity]. cbn [andb].
  destruct (is_power_of_two h) eqn:Ep; [|reflexivity]. exfalso. apply (is_power_of_two_iff h) in Ep; [|assumption]. destruct Ep as (j & Hj & Ej).
  destruct H as [H|[H|H]]; [lia|lia|exact (H j Hj Ej)].
Qed.
Theorem C81_builds E w h ul : answers E -> 0 < w -> (exists j, 0 < j /\ h = 2 ^ j) -> match ul with Some l => 1 <= l | None => True end ->
  exists cs top, power_of_two E w h ul = Some (pow2_grid w h ul, cs, top).
Proof. apply power_of_two_total. Qed.

(** ** A 4 to 4 balancer
    The middle rows change places. *)
Definition four : layout := fun p => match p with
  | (1, 2) | (1, 3) => Underground RIGHT true
  | (3, 2) | (6, 3) => Underground RIGHT false
  | (2, 1) => Belt RIGHT DOWN | (2, 2) => Belt DOWN DOWN | (2, 3) => Belt DOWN RIGHT
  | (4, 2) => Belt RIGHT UP | (4, 1) => Belt UP RIGHT
  | (5, 3) => Belt RIGHT UP | (5, 2) => Belt UP RIGHT
  | (3, 1) => Empty
  | _ => Belt RIGHT RIGHT end.
Definition four_grid : grid := pow2_grid 8 4 (Some 4).
Definition four_colour (p : pos) : Z := match p with
  | (x, 0) => 1 | (x, 1) => if x <? 3 then 1 else 2
  | (x, 2) => match x with 2 => 1 | 0 | 1 | 3 | 4 => 2 | _ => 1 end
  | (x, _) => match x with 2 | 3 | 4 | 5 => 1 | _ => 2 end end.
Definition four_under (p : pos) : Z := match p with
  | (1, 2) | (2, 2) | (3, 2) | (1, 3) | (2, 3) | (3, 3) | (4, 3) | (5, 3) | (6, 3) => 2 | _ => 0 end.
Definition four_table := tabulate four_grid (layout_assignment four_grid four 4 four_colour four_under (fun _ => 0) (fun _ => false)).
Definition four_solution : assignment := of_table four_table [].
Example C79_four_reads : reads four_grid four_solution four.
Proof. apply reads_by_checking. vm_compute. reflexivity. Qed.
Example C79_four : solves_pow2 naive_encoder 8 4 (Some 4) four_grid four_solution.
Proof.
  assert (X : match power_of_two naive_encoder 8 4 (Some 4) with Some (_, cs, _) => sat four_solution cs | None => false end = true) by (vm_compute; reflexivity).
  assert (Y : match power_of_two naive_encoder 8 4 (Some 4) with Some (g', _, _) => g' = four_grid | None => False end) by (vm_compute; reflexivity).
  destruct (power_of_two naive_encoder 8 4 (Some 4)) as [[[g' cs] top]|] eqn:E; [|discriminate]. subst g'. exists cs, top. auto.
Qed.
Example C79_four_layout : valid_layout (garea four_grid) four (max_hidden four_grid) /\ inlets (garea four_grid) four (rows 0 0 4).
Proof. destruct (C79_layout naive_encoder 8 4 (Some 4) four_grid four_solution four naive_honest C79_four C79_four_reads) as (V & _ & I & _). split; [exact V|exact I]. Qed.
Example C80_four_sets : map (fun y => (holds four_grid four_solution (0, y) 0, holds four_grid four_solution (7, y) 0, size_of four_grid four_solution (7, y))) [0; 1; 2; 3] =
  [(true, true, 1); (true, false, 1); (false, true, 1); (false, false, 1)].
Proof. vm_compute. reflexivity. Qed.
Example C80_four_balanced : balanced_layout {| aw := 12; ah := 4; wrapx := false; wrapy := false |} (framed 8 four) (max_hidden four_grid).
Proof. apply (C80_balanced naive_encoder 8 4 (Some 4) four_grid four_solution four naive_honest C79_four C79_four_reads). Qed.
Example C81_four : forall sp, NoDup sp -> (forall s, In s sp <-> is_splitter_at (garea four_grid) four s) -> Z.of_nat (List.length sp) = 0.
Proof. intros sp N H. exact (C81_number naive_encoder 8 4 (Some 4) four_grid four_solution four sp naive_honest C79_four C79_four_reads N H). Qed.
Example C81_answers : answers naive_encoder.
Proof. exact naive_answers. Qed.
Print Assumptions C79_layout.
Print Assumptions C80_sets.
Print Assumptions C80_flow.
Print Assumptions C80_balanced.
Print Assumptions C81_number.
Print Assumptions C81_sizes.
Print Assumptions C81_raises.
Print Assumptions C81_builds.
Print Assumptions C81_four.
