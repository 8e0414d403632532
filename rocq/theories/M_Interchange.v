(** Model of interchange.py: crossings of belts between composite balancers. *)
From Coq Require Import ZArith List Bool String.
From Verif Require Import Spec_Cnf Spec_Tile M_Json M_Tile M_Util M_Card M_Network M_Template M_Grid M_Oracle M_Balancer M_Optimise.
Import ListNotations.
Open Scope Z_scope.

(** interchange.py 26-41: a block of four tiles in one direction. *)
Definition passing_clauses (d : dir) (t00 t01 t10 t11 : tvars) : cnf :=
  map (fun sign => invert_components
    (map (fun t => set_literal (nth 0 (colour t) 0) sign) [t00; t01; t10; t11] ++
     [input_dir t00 d; output_dir t00 d; input_dir t01 d; output_dir t01 d;
      input_dir t10 (reverse d); output_dir t10 (reverse d); input_dir t11 (reverse d); output_dir t11 (reverse d)])%list) [false; true].
(** interchange.py 16-41: prevent_passing; a failing assertion (17) is [None]. *)
Definition prevent_passing (g : grid) : option cnf :=
  if in_grid g 0 0 && Nat.eqb (List.length (colour (tile_at g (0, 0)))) 1
  then Some (flat_map (fun d => for_blocks g d (next d) None (passing_clauses d)) directions)
  else None.

(** interchange.py 49-71: one block of nine tiles. *)
Definition awkward_clauses (g : grid) (d : dir) (b : list (list (option (Z * Z)))) : cnf :=
  match b with
  | [[Some p00; Some _; Some _]; [Some p10; Some p11; Some p12]; [Some p20; Some p21; Some p22]] =>
      [invert_components
        [is_empty (tile_at g p00); underground (tile_at g p00) d; - underground (tile_at g p10) d; is_empty (tile_at g p11);
         output_dir (tile_at g p20) (next d); output_dir (tile_at g p21) (next d);
         output_dir (tile_at g p22) (reverse d); output_dir (tile_at g p12) (reverse d)]]
  | _ => []
  end.
(** interchange.py 44-71: prevent_awkward_underground_entry. *)
Definition prevent_awkward_underground_entry (g : grid) : cnf :=
  flat_map (fun d =>
    match iterate_tile_blocks (geo g) (dir_vec (next d)) 3 (dir_vec d) 3 None None None None with
    | None => []
    | Some bs => flat_map (awkward_clauses g d) bs
    end) directions.

(** interchange.py 75: the tile at the same index of the array turned twice. *)
Definition turned (g : grid) (p : Z * Z) : Z * Z := (width (geo g) - 1 - fst p, height (geo g) - 1 - snd p).
(** interchange.py 76-87: one pair of tiles. *)
Definition symmetry_clauses (a b : tvars) : option cnf :=
  let* same := set_numbers_equal
    (inputs a ++ outputs a ++ map (underground a) directions ++
     [is_empty a; is_belt a; is_splitter a; is_underground_in a; is_underground_out a])%list
    (outputs b ++ inputs b ++ map (underground b) directions ++
     [is_empty b; is_belt b; is_splitter b; is_underground_out b; is_underground_in b])%list false in
  Some (same ++ [[- is_splitter_head a; - is_splitter_head b]])%list.
(** interchange.py 74-87: require_rotational_symmetry. *)
Definition require_rotational_symmetry (g : grid) : option cnf :=
  oflat (fun p => symmetry_clauses (tile_at g p) (tile_at g (turned g p))) (iterate_tiles (geo g)).

(** interchange.py 90-93: EdgeTemplate. *)
Record edge := { present : lit; edge_colour : list lit }.
(** interchange.py 97-102: the tiles the edge is left from. *)
Definition edge_line (g : grid) (d : dir) (from : Z) : list (Z * Z) :=
  if is_horizontal d then map (fun y => (from, y)) (range (height (geo g))) else map (fun x => (x, from)) (range (width (geo g))).
(** interchange.py 105-124: one position of the line. *)
Definition edge_at (g : grid) (d : dir) (p : Z * Z) (top : Z) : option (list edge * cnf * Z) :=
  let q := (fst p + dx d, snd p + dy d) in
  if negb (in_grid g (fst p) (snd p) && in_grid g (fst q) (snd q)) then None else
  let tin := tile_at g p in let tout := tile_at g q in
  let hidden t := if is_horizontal d then colour_ux t else colour_uy t in
  let here := top + 1 in
  let under := fresh here (List.length (hidden tin)) in
  let* same_in := set_numbers_equal (hidden tin) under false in
  let* same_out := set_numbers_equal (hidden tout) under false in
  Some ([{| present := output_dir tin d; edge_colour := colour tout |}; {| present := here; edge_colour := under |}],
        (implies [here] [[underground tin d; underground tout d]] ++
         implies [- here] (set_all_false [underground tin d; underground tout d]) ++
         implies [underground tin d] same_in ++
         implies [underground tout d] same_out)%list,
        here + Z.of_nat (List.length (hidden tin))).
(** interchange.py 96-125: create_edge. *)
Fixpoint edge_loop (g : grid) (d : dir) (line : list (Z * Z)) (top : Z) : option (list edge * cnf * Z) :=
  match line with
  | [] => Some ([], [], top)
  | p :: r =>
      let* (es, cs, top1) := edge_at g d p top in
      let* (es', cs', top2) := edge_loop g d r top1 in
      Some ((es ++ es')%list, (cs ++ cs')%list, top2)
  end.
Definition create_edge (g : grid) (d : dir) (from : Z) (top : Z) : option (list edge * cnf * Z) := edge_loop g d (edge_line g d from) top.

(** interchange.py 128-133: flow_counts. *)
Definition flow_counts (n : Z) : list Z :=
  every 1 2 (map (fun i =>
    if n mod 2 =? 1 then n / 2 - Z.abs (i - (n - 1)) / 2 else n / 2 - (Z.abs (i - (n - 1)) + 1) / 2) (range (n * 2 - 1))).

(** interchange.py 141-143, 146-148, 153-155, 158-160: [l] says that the edge
    is crossed by something of colour [c]. *)
Definition flow_clauses (c : Z) (el : edge * lit) : option cnf :=
  let '(e, l) := el in
  let* is_c := set_number c (edge_colour e) in
  let* not_c := set_not_number c (edge_colour e) in
  Some (implies [l] ([present e] :: is_c) ++ implies [- l] [- present e :: not_c])%list.
(** interchange.py 140-143, 145-148, 152-155, 157-160. *)
Definition flow_literals (c : Z) (es : list edge) (top : Z) : option (list lit * cnf * Z) :=
  let ls := fresh top (List.length es) in
  let* cs := oflat (flow_clauses c) (combine es ls) in
  Some (ls, cs, top + Z.of_nat (List.length es)).

(** Code that allocates variables and adds clauses, followed by code that uses
    its result. *)
Definition bind_gen {X} (f : Z -> option (X * cnf * Z)) (k : X -> gen) : gen := fun top =>
  let* (x, c1, t1) := f top in let* (c2, t2) := k x t1 in Some ((c1 ++ c2)%list, t2).

(** interchange.py 138-162: between the rows [y] and [y + 1]. *)
Definition row_cut (E : card_encoder) (g : grid) (y count : Z) : gen :=
  bind_gen (create_edge g UP (y + 1)) (fun up_edge =>
  bind_gen (create_edge g DOWN y) (fun down_edge =>
  bind_gen (flow_literals 1 up_edge) (fun up_flow =>
  bind_gen (flow_literals 1 down_edge) (fun up_inv => seq_gen
    [library_atleast E (up_flow ++ invert_components up_inv)%list (count + len up_inv);
     bind_gen (flow_literals 0 down_edge) (fun down_flow =>
     bind_gen (flow_literals 0 up_edge) (fun down_inv =>
     library_equals E (down_flow ++ invert_components down_inv)%list (count + len down_inv)))])))).
(** interchange.py 165-171: between the columns [x] and [x + 1]. *)
Definition column_cut (E : card_encoder) (g : grid) (x : Z) : gen :=
  bind_gen (create_edge g RIGHT x) (fun forward =>
  bind_gen (create_edge g LEFT (x + 1)) (fun backward =>
  library_equals E (map present forward ++ invert_components (map present backward))%list (height (geo g) + Z.of_nat (List.length backward)))).
(** interchange.py 136-171: require_correct_transport_through_edges;
    range(1, height, 2) of an even height. *)
Definition require_correct_transport_through_edges (E : card_encoder) (g : grid) : gen :=
  let h := height (geo g) in
  seq_gen (map (fun yc => row_cut E g (fst yc) (snd yc)) (combine (map (fun k => 1 + 2 * k) (range (h / 2))) (flow_counts (h / 2))) ++
           map (column_cut E g) (range (width (geo g) - 1)))%list.

(** interchange.py 192. *)
Definition interchange_grid (w h ul : Z) : grid := {|
  geo := {| width := w; height := h; wrap_x := false; wrap_y := false |};
  gcolours := Some 2; glen := Some ul; gextras := []; gtop := 0 |}.

(** interchange.py 198-200. *)
Definition end_directions (g : grid) (y : Z) : cnf :=
  [[input_dir (tile_at g (0, y)) RIGHT]; [output_dir (tile_at g (width (geo g) - 1, y)) RIGHT]].
(** interchange.py 207-215: the colours of the outputs. *)
Definition output_colours (g : grid) (alternating : bool) : option cnf :=
  let hue y := colour (tile_at g (width (geo g) - 1, y)) in
  if alternating then oflat (fun y => set_number (y mod 2) (hue y)) (range (height (geo g)))
  else oflat (fun k => set_numbers 0 1 (hue (2 * k)) (hue (2 * k + 1))) (range (height (geo g) / 2)).
(** interchange.py 226-236. *)
Definition optimise (g : grid) (rot_symmetry : bool) : list gen :=
  if rot_symmetry then
    [pure (require_rotational_symmetry g);
     pure (expand_underground g 0 0 None None);
     pure (Some (prevent_small_loops g));
     pure (Some (prevent_empty_along_underground g));
     pure (Some (prevent_belt_hooks g));
     pure (Some (prevent_mergeable_underground g));
     pure (Some (prevent_semicircles g));
     pure (Some (prevent_underground_hook g))]
  else [pure (Some (apply_generic_optimisations g))].

(** interchange.py 186-241: the clauses of main before the partial solution is
    added.  Without a column the first get_tile_instance (199) raises. *)
Definition interchange_clauses (E : card_encoder) (w h ul : Z) (alternating rot_symmetry : bool) : option (grid * cnf * Z) :=
  if h <? 1 then None else
  if h mod 2 =? 1 then None else
  if w <? 1 then None else
  let g := interchange_grid w h ul in
  let* init := init_clauses g in
  let* (cs, top) := seq_gen
    ([pure (Some (map (fun p => [- is_splitter (tile_at g p)]) (iterate_tiles (geo g))));
      pure (Some (flat_map (end_directions g) (range h)));
      pure (oflat (fun y => set_colour g 0 y 0) (range (h / 2)));
      pure (oflat (fun y => set_colour g 0 y 1) (range_from (h / 2) h));
      pure (output_colours g alternating);
      pure (Some (block_underground_through_edges g (EBool true)));
      pure (Some (block_belts_through_edges g (EPair false true)));
      pure (Some (prevent_bad_undergrounding g));
      pure (prevent_bad_colouring g);
      pure (Some (prevent_intersection g));
      pure (enforce_maximum_underground_length g)] ++
     optimise g rot_symmetry ++
     [pure (prevent_passing g);
      pure (Some (prevent_awkward_underground_entry g));
      require_correct_transport_through_edges E g])%list (grid_top g) in
  Some (g, (init ++ cs)%list, top).
