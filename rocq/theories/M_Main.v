(** Model of belt_balancer.py, 287-385: set_nonempty_tiles and main. *)
From Coq Require Import String ZArith List Bool.
From Verif Require Import Spec_Cnf Spec_Tile Spec_Main M_Json M_Tile M_Util M_Card M_Network M_Template M_Grid M_Oracle M_Balancer M_Optimise M_Dict M_Blueprint.
Import ListNotations.
Open Scope Z_scope.

(** belt_balancer.py 287-291: set_nonempty_tiles, for the array of tiles that
    convert_to_tiles returns: np.ndenumerate goes through it row by row. *)
Definition numbered {A} (l : list A) : list (Z * A) := map (fun ix => (Z.of_nat (fst ix), snd ix)) (indexed l).
Definition set_nonempty_tiles (g : grid) (tiles : list (list tile)) : option cnf :=
  oflat (fun yr => oflat (fun xt =>
    match snd xt with Empty => Some [] | t => set_tile g (fst xt) (fst yr) t end) (numbered (snd yr))) (numbered tiles).

(** blueprint.py 259-271: convert_to_tiles.  [decode] is decode_blueprint
    followed by the look-up of the entities, [loads] is json.loads for an array
    of cells; both fail with [None].  The cells are in the format that the
    programs print, an object with the entry "tile". *)
Definition convert_to_tiles (decode : string -> option (list entity)) (loads : string -> option (list (list json))) (s : string) : option (list (list tile)) :=
  match decode s with
  | Some es => import_blueprint es
  | None => let* rows := loads s in omap (omap (fun c => let* t := jget "tile"%string c in tile_read t)) rows
  end.

(** belt_balancer.py 328-335: the combinations that are refused. *)
Definition flags (l : list bool) : Z := len (filter (fun b => b) l).
Definition refused (o : options) : bool :=
  o_edge_splitters o && o_edge_belts o ||
  (2 <=? flags [o_aligned o; o_90 o; o_180 o; o_custom o]) ||
  o_symmetry o && o_90 o.

(** An [if] around statements that add clauses. *)
Definition when_ (b : bool) (l : list gen) : list gen := if b then l else [].

(** belt_balancer.py 343-380: what is called after create_balancer, in order. *)
Definition main_calls (E : card_encoder) (o : options) (g : grid) (net : counter) : list gen :=
  ([pure (Some (prevent_intersection g))] ++
   when_ (o_edge_splitters o || o_fast o) [enforce_edge_splitters E g net] ++
   when_ (o_edge_belts o) [pure (prevent_double_edge_belts g)] ++
   when_ (o_glue o || o_fast o) [pure (Some (glue_splitters g)); pure (Some (glue_partial_splitters g))] ++
   when_ (o_expand o || o_fast o) [pure (expand_underground g 1 0 (Some (width (geo g) - 2)) None)] ++
   when_ (o_mergeable o || o_fast o) [pure (Some (prevent_mergeable_underground g))] ++
   when_ (o_symmetry o) [break_vertical_symmetry g] ++
   when_ (o_patterns o || o_fast o)
     [pure (Some (prevent_belt_hooks g)); pure (Some (prevent_semicircles g)); pure (Some (prevent_small_loops g));
      pure (Some (prevent_underground_hook g)); pure (Some (prevent_zigzags g)); pure (Some (prevent_belt_parallel_splitter g))] ++
   [pure (enforce_maximum_underground_length g); pure (Some (prevent_empty_along_underground g))] ++
   (match o_partial o with Some tiles => [pure (set_nonempty_tiles g tiles)] | None => [] end) ++
   (if o_90 o then [setup_balancer_ends_90 g net (o_use_ends o)]
    else if o_180 o then [setup_balancer_ends_180 g net]
    else if o_custom o then []
    else [setup_balancer_ends g net (o_aligned o) (o_use_ends o)]))%list.

(** belt_balancer.py 325-380: the grid, the clauses and the number of variables
    when the solver is started; [network] is the list read from the file. *)
Definition main_length (o : options) : option Z := if o_length o =? -1 then None else Some (o_length o).
Definition main_clauses (E : card_encoder) (o : options) (network : list splitter) (w h : Z) : option (grid * cnf * Z) :=
  if refused o then None else
  let net := deduplicate_network network in
  let* (gc, top) := create_balancer E net w h (main_length o) in
  let (g, cs) := (gc : grid * cnf) in
  let* (cs', top') := seq_gen (main_calls E o g net) top in
  Some (g, (cs ++ cs')%list, top').
