(** Model of make_block.py: blocks of random belts. *)
From Coq Require Import ZArith List Bool String.
From Verif Require Import Spec_Cnf Spec_Tile M_Json M_Tile M_Util M_Card M_Template M_Grid M_Balancer M_Optimise.
Import ListNotations.
Open Scope Z_scope.

(** make_block.py 30-35: the colour of the tunnel variables on the axis of [d]. *)
Definition tunnel_colour (g : grid) (d : dir) (p : Z * Z) : list lit :=
  if is_horizontal d then colour_ux (tile_at g p) else colour_uy (tile_at g p).

(** make_block.py 22-47: one direction of ensure_loop_length; [colours] is
    grid.colours.  The test of line 37 is made on the coordinates before wrapping. *)
Definition loop_step (g : grid) (colours : Z) (p : Z * Z) (d : dir) : option cnf :=
  match get_tile_instance_offset (geo g) (fst p) (snd p) (dx d) (dy d) with
  | None => Some []
  | Some q =>
      let a := tile_at g p in let b := tile_at g q in
      let* c1 := if (fst p + dx d =? 0) && (snd p + dy d =? 0)
                 then set_number (colours - 1) (colour a)
                 else increment_number (colour a) (colour b) in
      let* c2 := increment_number (colour a) (tunnel_colour g d q) in
      let* c3 := set_numbers_equal (tunnel_colour g d p) (colour b) false in
      let* c4 := set_numbers_equal (tunnel_colour g d p) (tunnel_colour g d q) false in
      Some (implies [output_dir a d] c1 ++
            implies (input_dir a d :: invert_components (outputs a)) c2 ++
            implies (invert_components (inputs b) ++ [output_dir b d]) c3 ++
            implies [underground a d; underground b d] c4)%list
  end.
(** make_block.py 15-20: the colour of one tile. *)
Definition loop_start (g : grid) (p : Z * Z) : cnf :=
  if (fst p =? 0) && (snd p =? 0) then map (fun l => [- l]) (colour (tile_at g p)) else [colour (tile_at g p)].
(** make_block.py 12-47: ensure_loop_length.  Lines 13-14 go through the rows. *)
Definition row_major (g : grid) : list (Z * Z) :=
  flat_map (fun y => map (fun x => (x, y)) (range (width (geo g)))) (range (height (geo g))).
Definition ensure_loop_length (g : grid) : option cnf :=
  match gcolours g with
  | None => None
  | Some colours => oflat (fun p =>
      let* steps := oflat (loop_step g colours p) directions in Some (loop_start g p ++ steps)%list) (row_major g)
  end.

(** make_block.py 50-62: prevent_parallel.  Direction has no addition, so that
    line 59 raises as soon as it is reached. *)
Definition prevent_parallel (g : grid) : option cnf :=
  oflat (fun p => oflat (fun d =>
    match get_tile_instance_offset (geo g) (fst p) (snd p) (dx (next d)) (dy (next d)) with
    | None => Some []
    | Some _ => None
    end) [RIGHT; UP]) (cells (width (geo g)) (height (geo g))).

(** make_block.py 66-78: the arguments, without those about the output. *)
Record block_options := {
  bo_width : Z; bo_height : Z; bo_tile : bool; bo_allow_empty : bool; bo_length : Z; bo_no_parallel : bool; bo_single : bool }.

(** make_block.py 83-89: the grid.  Without --single-loop the length is not
    passed on, and Grid takes its default, 4 (solver.py 38). *)
Definition block_grid (o : block_options) : grid := {|
  geo := {| width := bo_width o; height := bo_height o; wrap_x := bo_tile o; wrap_y := bo_tile o |};
  gcolours := Some (if bo_single o then bo_width o * bo_height o else 1);
  glen := Some (if bo_single o then bo_length o else 4);
  gextras := []; gtop := 0 |}.

(** make_block.py 109-116: the clauses of one tile. *)
Definition block_tile (o : block_options) (t : tvars) : cnf :=
  ((if bo_allow_empty o then [] else [all_direction t]) ++
   (if bo_length o =? 0 then set_all_false (map (underground t) directions) else []) ++
   [[- is_splitter t]])%list.

(** make_block.py 80-116: the grid and its clauses. *)
Definition make_block (o : block_options) : option (grid * cnf) :=
  if bo_allow_empty o && bo_single o then None else
  if bo_length o <? 0 then None else
  if negb ((0 <? bo_width o) && (0 <? bo_height o)) then None else
  let g := block_grid o in
  let* init := init_clauses g in
  let* tunnels := match glen g with
    | Some l => if 0 <? l then let* cs := enforce_maximum_underground_length g in Some (cs ++ prevent_empty_along_underground g)%list else Some []
    | None => Some []
    end in
  let* parallel := if bo_no_parallel o then prevent_parallel g else Some [] in
  let* loop := if bo_single o then ensure_loop_length g else Some [] in
  Some (g, init ++ prevent_intersection g ++ prevent_bad_undergrounding g ++
    (if bo_tile o then [] else block_belts_through_edges g (EBool true) ++ block_underground_through_edges g (EBool true)) ++
    prevent_small_loops g ++ tunnels ++ parallel ++ loop ++
    flat_map (fun p => block_tile o (tile_at g p)) (iterate_tiles (geo g)))%list.
