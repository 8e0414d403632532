(** Property theorems C56, C70: what the clauses of optimisations.py exclude. *)
From Coq Require Import String ZArith List Bool Lia.
From Verif Require Import Spec_Cnf Spec_Tile Spec_Layout Spec_Pattern M_Json M_Tile M_Util M_Card M_Template M_Grid M_Balancer M_Optimise
  P_Cnf P_Util P_Card P_Tile P_Layout P_List P_Template P_Walk P_Grid P_GridSound P_GridComplete P_Transport T_Grid P_Pattern.
Import ListNotations.
Local Open Scope string_scope.
Open Scope Z_scope.

(** [a] is a solution of the grid whose layout is [T]. *)
Section Solution.
  Variable g : grid.
  Variable e : edges.
  Variable a : assignment.
  Variable T : layout.
  Hypothesis W : wf_grid g.
  Hypothesis S : solves g e a.
  Hypothesis R : reads g a T.
  Notation A := (garea g).

  Lemma sol_rules : grid_rules g a.
  Proof. destruct S as (H & _). apply (solves_init_rules g a W). exact H. Qed.
  Lemma sol_links : forall p d, inside A p -> link_rule g a p d.
  Proof. destruct S as (_ & H & _). apply (intersection_sat g W a). exact H. Qed.
  Lemma sol_under : forall p d, inside A p -> under_rule g a p d.
  Proof. destruct S as (_ & _ & H & _). apply (undergrounding_sat g W a). exact H. Qed.

  (** ** C56: patterns of belts *)
  Theorem C56_small_loops : sat a (prevent_small_loops g) = true <-> ~ small_loop A T.
  Proof. apply (small_loops_exact g W a T R sol_rules). Qed.
  Theorem C56_hooks : sat a (prevent_belt_hooks g) = true <->
    forall p d t, inside A p -> perpendicular d t -> ~ exists i o, belt_hook A T p d t i o.
  Proof. apply (hooks_exact g W a T R sol_rules sol_links). Qed.
  Theorem C56_semicircles : sat a (prevent_semicircles g) = true <->
    forall p d t, inside A p -> perpendicular d t -> ~ exists i o, semicircle A T p d t i o.
  Proof. apply (semicircles_exact g W a T R sol_rules sol_links). Qed.
  Theorem C56_zigzags : sat a (prevent_zigzags g) = true <->
    forall p d t, inside A p -> perpendicular d t -> ~ zigzag A T p d t.
  Proof. apply (zigzags_exact g W a T R sol_rules sol_links). Qed.
  (** Two straight belts before a splitter; in direction RIGHT not in the second
      column and not in the last but one. *)
  Theorem C56_glue : sat a (glue_splitters g) = true <->
    forall p d, inside A p -> ~ (d = RIGHT /\ (fst p = 1 \/ fst p = width (geo g) - 2)) -> ~ loose_splitter A T p d.
  Proof. apply (glue_exact g W a T R sol_rules sol_links). Qed.

  (** ** C70: patterns of tunnels *)
  (** Tunnels up to this length are looked at. *)
  Definition useful : Z := let m := Z.max (width (geo g)) (height (geo g)) - 2 in match glen g with Some l => Z.min l m | None => m end.
  Theorem C70_empty_tunnels : sat a (prevent_empty_along_underground g) = true <->
    forall p d k, inside A p -> k <= useful + 1 -> ~ empty_tunnel A T p d k.
  Proof. apply (empty_exact g W a T R sol_rules). Qed.
  Theorem C70_double_tunnels : sat a (prevent_mergeable_underground g) = true <->
    forall p d k, inside A p -> k <= useful + 1 -> ~ double_tunnel A T p d k.
  Proof. apply (mergeable_exact g W a T R sol_rules sol_under). Qed.
  Theorem C70_underground_hooks : sat a (prevent_underground_hook g) = true <->
    forall p d t, inside A p -> perpendicular d t -> ~ ((exists i, hook_to_entrance A T p d t i) \/ exists o, hook_from_exit A T p d t o).
  Proof. apply (underground_hook_exact g W a T R sol_rules sol_links sol_under). Qed.
  (** A tunnel over [k] cells, shorter than the longest possible, and a straight
      belt before or after it, all in the given part of the grid. *)
  Theorem C70_short_tunnels l min_x min_y mx my : glen g = Some l ->
    let max_x := match mx with Some v => v | None => width (geo g) - 1 end in
    let max_y := match my with Some v => v | None => height (geo g) - 1 end in
    0 <= min_x -> 0 <= min_y -> max_x < width (geo g) -> max_y < height (geo g) ->
    exists cs, expand_underground g min_x min_y mx my = Some cs /\
      (sat a cs = true <-> forall p d k, 2 <= k <= l -> in_region min_x min_y max_x max_y p -> in_region min_x min_y max_x max_y (far p d (k + 1)) ->
         ~ late_entrance A T p d k /\ ~ early_exit A T p d k).
  Proof. apply (expand_exact g W a T R sol_rules sol_under). Qed.
  (** With tunnels of any length: any straight belt next to a tunnel. *)
  Theorem C70_short_tunnels_unlimited min_x min_y mx my : glen g = None ->
    let max_x := match mx with Some v => v | None => width (geo g) - 1 end in
    let max_y := match my with Some v => v | None => height (geo g) - 1 end in
    0 <= min_x -> 0 <= min_y -> max_x < width (geo g) -> max_y < height (geo g) ->
    exists cs, expand_underground g min_x min_y mx my = Some cs /\
      (sat a cs = true <-> forall p d, in_region min_x min_y max_x max_y p -> in_region min_x min_y max_x max_y (far p d 1) ->
         ~ (T p = Belt d d /\ T (far p d 1) = Underground d true) /\ ~ (T p = Underground d false /\ T (far p d 1) = Belt d d)).
  Proof. apply (expand_infinite_exact g W a T R sol_rules sol_links). Qed.
End Solution.
(** prevent_spirals excludes nothing, whatever its clauses would be. *)
Theorem C56_spirals g a f : sat a (spiral_clauses g f) = true.
Proof. rewrite spirals_none. reflexivity. Qed.

(** * Concrete layouts, each with one of the patterns *)
Definition pat_grid (L : option Z) : grid :=
  {| geo := {| width := 8; height := 3; wrap_x := false; wrap_y := false |}; gcolours := None; glen := L; gextras := []; gtop := 0 |}.
Definition on_cells (l : list (pos * tile)) : layout := fun p =>
  match find (fun ct => (fst (fst ct) =? fst p) && (snd (fst ct) =? snd p)) l with Some ct => snd ct | None => Empty end.
Definition pat_assignment L l : assignment := layout_assignment (pat_grid L) (on_cells l) 6 (fun _ => 0) (fun _ => 0) (fun _ => 0) (fun _ => false).
Lemma pat_solves L l : (L = None \/ L = Some 6) ->
  match init_clauses (pat_grid L) with Some cs => sat (pat_assignment L l) cs | None => false end = true ->
  sat (pat_assignment L l) (prevent_intersection (pat_grid L)) = true ->
  sat (pat_assignment L l) (prevent_bad_undergrounding (pat_grid L)) = true ->
  sat (pat_assignment L l) (block_underground_through_edges (pat_grid L) (EBool true)) = true ->
  match enforce_maximum_underground_length (pat_grid L) with Some cs => sat (pat_assignment L l) cs | None => false end = true ->
  forallb (fun p => match decoded (pat_grid L) (pat_assignment L l) p with Some t => if tile_eq_dec t (on_cells l p) then true else false | None => false end)
    (iterate_tiles (geo (pat_grid L))) = true ->
  wf_grid (pat_grid L) /\ solves (pat_grid L) (EBool true) (pat_assignment L l) /\ reads (pat_grid L) (pat_assignment L l) (on_cells l).
Proof.
  intros HL H1 H2 H3 H4 H5 H6. split; [destruct HL as [-> | ->]; repeat split; cbn; lia|]. split.
  - split; [apply check_clauses; exact H1|]. split; [exact H2|]. split; [exact H3|]. split; [exact H4|apply check_clauses; exact H5].
  - intros p Hp. rewrite forallb_forall in H6. specialize (H6 p (proj2 (iterate_tiles_in _ _) Hp)).
    unfold decoded in H6. destruct (read_tile _) as [t|]; [|discriminate]. destruct (tile_eq_dec t (on_cells l p)); [congruence|discriminate].
Qed.
Ltac pat := apply pat_solves; [auto|vm_compute; reflexivity ..].

Definition loop_cells : list (pos * tile) := [((2, 0), Belt UP RIGHT); ((3, 0), Belt RIGHT DOWN); ((3, 1), Belt DOWN LEFT); ((2, 1), Belt LEFT UP)].
Definition hook_cells : list (pos * tile) := [((0, 0), Belt RIGHT RIGHT); ((1, 0), Belt RIGHT DOWN); ((1, 1), Belt DOWN LEFT); ((0, 1), Belt LEFT LEFT)].
Definition semi_cells : list (pos * tile) :=
  [((0, 1), Belt RIGHT UP); ((0, 0), Belt UP RIGHT); ((1, 0), Belt RIGHT RIGHT); ((2, 0), Belt RIGHT DOWN); ((2, 1), Belt DOWN RIGHT);
   ((3, 1), Belt RIGHT RIGHT); ((4, 1), Belt RIGHT RIGHT); ((5, 1), Belt RIGHT RIGHT); ((6, 1), Belt RIGHT RIGHT); ((7, 1), Belt RIGHT RIGHT)].
Definition zig_cells : list (pos * tile) :=
  [((0, 0), Belt RIGHT DOWN); ((0, 1), Belt DOWN RIGHT); ((1, 1), Belt RIGHT DOWN); ((1, 2), Belt DOWN DOWN)].
Definition glue_cells : list (pos * tile) :=
  [((0, 0), Belt RIGHT RIGHT); ((0, 1), Belt RIGHT RIGHT); ((1, 0), Belt RIGHT RIGHT); ((1, 1), Belt RIGHT RIGHT); ((2, 0), Splitter RIGHT false); ((2, 1), Splitter RIGHT true);
   ((3, 0), Belt RIGHT UP); ((3, 1), Belt RIGHT DOWN); ((3, 2), Belt DOWN DOWN)].
Definition empty_cells : list (pos * tile) := [((0, 1), Underground RIGHT true); ((3, 1), Underground RIGHT false); ((4, 1), Belt RIGHT UP); ((4, 0), Belt UP UP)].
Definition short_cells : list (pos * tile) :=
  [((0, 1), Belt RIGHT RIGHT); ((1, 1), Underground RIGHT true); ((2, 0), Belt DOWN DOWN); ((2, 1), Belt DOWN DOWN); ((2, 2), Belt DOWN DOWN); ((3, 1), Underground RIGHT false); ((4, 1), Belt RIGHT UP); ((4, 0), Belt UP UP)].
Definition double_cells : list (pos * tile) :=
  [((0, 1), Underground RIGHT true); ((1, 0), Belt DOWN DOWN); ((1, 1), Belt DOWN DOWN); ((1, 2), Belt DOWN DOWN); ((2, 1), Underground RIGHT false);
   ((3, 1), Underground RIGHT true); ((4, 0), Belt DOWN DOWN); ((4, 1), Belt DOWN DOWN); ((4, 2), Belt DOWN DOWN); ((5, 1), Underground RIGHT false); ((6, 1), Belt RIGHT UP); ((6, 0), Belt UP UP)].
Definition uhook_cells : list (pos * tile) :=
  [((1, 0), Belt DOWN LEFT); ((0, 0), Belt LEFT DOWN); ((0, 1), Belt DOWN RIGHT); ((1, 1), Underground RIGHT true);
   ((3, 0), Belt DOWN DOWN); ((3, 1), Belt DOWN DOWN); ((3, 2), Belt DOWN DOWN); ((4, 1), Underground RIGHT false); ((5, 1), Belt RIGHT UP); ((5, 0), Belt UP UP)].

(** The verdicts of the families, in the order loops, hooks, semicircles,
    zigzags, glue, empty tunnels, double tunnels, underground hooks, expansion. *)
Definition verdicts L l : list bool :=
  let g := pat_grid L in let a := pat_assignment L l in
  [sat a (prevent_small_loops g); sat a (prevent_belt_hooks g); sat a (prevent_semicircles g); sat a (prevent_zigzags g); sat a (glue_splitters g);
   sat a (prevent_empty_along_underground g); sat a (prevent_mergeable_underground g); sat a (prevent_underground_hook g);
   match expand_underground g 0 0 None None with Some cs => sat a cs | None => false end].
Example loop_met : wf_grid (pat_grid (Some 6)) /\ solves (pat_grid (Some 6)) (EBool true) (pat_assignment (Some 6) loop_cells) /\ reads (pat_grid (Some 6)) (pat_assignment (Some 6) loop_cells) (on_cells loop_cells).
Proof. pat. Qed.
Example loop_verdicts : verdicts (Some 6) loop_cells = [false; true; true; true; true; true; true; true; true].
Proof. vm_compute. reflexivity. Qed.
Example hook_met : wf_grid (pat_grid (Some 6)) /\ solves (pat_grid (Some 6)) (EBool true) (pat_assignment (Some 6) hook_cells) /\ reads (pat_grid (Some 6)) (pat_assignment (Some 6) hook_cells) (on_cells hook_cells).
Proof. pat. Qed.
Example hook_verdicts : verdicts (Some 6) hook_cells = [true; false; true; true; true; true; true; true; true].
Proof. vm_compute. reflexivity. Qed.
Example semi_met : wf_grid (pat_grid (Some 6)) /\ solves (pat_grid (Some 6)) (EBool true) (pat_assignment (Some 6) semi_cells) /\ reads (pat_grid (Some 6)) (pat_assignment (Some 6) semi_cells) (on_cells semi_cells).
Proof. pat. Qed.
Example semi_verdicts : verdicts (Some 6) semi_cells = [true; true; false; true; true; true; true; true; true].
Proof. vm_compute. reflexivity. Qed.
Example zig_met : wf_grid (pat_grid (Some 6)) /\ solves (pat_grid (Some 6)) (EBool true) (pat_assignment (Some 6) zig_cells) /\ reads (pat_grid (Some 6)) (pat_assignment (Some 6) zig_cells) (on_cells zig_cells).
Proof. pat. Qed.
Example zig_verdicts : verdicts (Some 6) zig_cells = [true; true; true; false; true; true; true; true; true].
Proof. vm_compute. reflexivity. Qed.
Example glue_met : wf_grid (pat_grid (Some 6)) /\ solves (pat_grid (Some 6)) (EBool true) (pat_assignment (Some 6) glue_cells) /\ reads (pat_grid (Some 6)) (pat_assignment (Some 6) glue_cells) (on_cells glue_cells).
Proof. pat. Qed.
Example glue_verdicts : verdicts (Some 6) glue_cells = [true; true; true; true; false; true; true; true; true].
Proof. vm_compute. reflexivity. Qed.
Example empty_met : wf_grid (pat_grid (Some 6)) /\ solves (pat_grid (Some 6)) (EBool true) (pat_assignment (Some 6) empty_cells) /\ reads (pat_grid (Some 6)) (pat_assignment (Some 6) empty_cells) (on_cells empty_cells).
Proof. pat. Qed.
Example empty_verdicts : verdicts (Some 6) empty_cells = [true; true; true; true; true; false; true; true; true].
Proof. vm_compute. reflexivity. Qed.
Example short_met : wf_grid (pat_grid (Some 6)) /\ solves (pat_grid (Some 6)) (EBool true) (pat_assignment (Some 6) short_cells) /\ reads (pat_grid (Some 6)) (pat_assignment (Some 6) short_cells) (on_cells short_cells).
Proof. pat. Qed.
Example short_verdicts : verdicts (Some 6) short_cells = [true; true; true; true; true; true; true; true; false].
Proof. vm_compute. reflexivity. Qed.
Example double_met : wf_grid (pat_grid (Some 6)) /\ solves (pat_grid (Some 6)) (EBool true) (pat_assignment (Some 6) double_cells) /\ reads (pat_grid (Some 6)) (pat_assignment (Some 6) double_cells) (on_cells double_cells).
Proof. pat. Qed.
Example double_verdicts : verdicts (Some 6) double_cells = [true; true; true; true; true; true; false; true; true].
Proof. vm_compute. reflexivity. Qed.
Example uhook_met : wf_grid (pat_grid (Some 6)) /\ solves (pat_grid (Some 6)) (EBool true) (pat_assignment (Some 6) uhook_cells) /\ reads (pat_grid (Some 6)) (pat_assignment (Some 6) uhook_cells) (on_cells uhook_cells).
Proof. pat. Qed.
Example uhook_verdicts : verdicts (Some 6) uhook_cells = [true; true; true; true; true; true; true; false; true].
Proof. vm_compute. reflexivity. Qed.
Example unlimited_met : wf_grid (pat_grid None) /\ solves (pat_grid None) (EBool true) (pat_assignment None short_cells) /\ reads (pat_grid None) (pat_assignment None short_cells) (on_cells short_cells).
Proof. pat. Qed.
Example unlimited_verdicts : verdicts None short_cells = [true; true; true; true; true; true; true; true; false].
Proof. vm_compute. reflexivity. Qed.
(** The theorems read these verdicts as patterns of the layouts. *)
Example loop_found : small_loop (garea (pat_grid (Some 6))) (on_cells loop_cells).
Proof. exists (2, 0), RIGHT, DOWN. split; [right; reflexivity|]. split; [repeat split; cbn; lia|]. repeat split. Qed.
Example double_found : double_tunnel (garea (pat_grid (Some 6))) (on_cells double_cells) (0, 1) RIGHT 5.
Proof.
  exists 2, (2, 1), (3, 1), (5, 1).
  split; [|split; [reflexivity|]]; (split; [lia|]); (split; [reflexivity|]); (split; [reflexivity|]); (split; [reflexivity|]);
    intros j Hj; assert (j = 1) as -> by lia; eexists; (split; [reflexivity|cbn; tauto]).
Qed.
Example short_found : late_entrance (garea (pat_grid (Some 6))) (on_cells short_cells) (0, 1) RIGHT 2.
Proof.
  exists (1, 1), (3, 1). split; [reflexivity|]. split; [reflexivity|]. (split; [lia|]); (split; [reflexivity|]); (split; [reflexivity|]); (split; [reflexivity|]);
    intros j Hj; assert (j = 1) as -> by lia; eexists; (split; [reflexivity|cbn; tauto]).
Qed.
Print Assumptions C56_small_loops.
Print Assumptions C56_hooks.
Print Assumptions C56_semicircles.
Print Assumptions C56_zigzags.
Print Assumptions C56_glue.
Print Assumptions C70_empty_tunnels.
Print Assumptions C70_double_tunnels.
Print Assumptions C70_underground_hooks.
Print Assumptions C70_short_tunnels.
Print Assumptions C70_short_tunnels_unlimited.
Print Assumptions C56_spirals.
