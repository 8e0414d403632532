(** Model of [shrink_underground] of factorio_sat/optimisations.py, which no
    command calls. *)
From Coq Require Import ZArith List Bool.
From Verif Require Import Spec_Cnf Spec_Tile M_Json M_Tile M_Util M_Template M_Grid M_Balancer M_Optimise.
Import ListNotations.
Open Scope Z_scope.

(** optimisations.py 115-130: the clauses of one tile and one direction. *)
Definition shrink_at (g : grid) (p : Z * Z) (d : dir) : cnf :=
  let tile_a := tile_at g p in
  match offset g p (dx d) (dy d) with
  | None => []
  | Some q =>
      let tile_b := tile_at g q in
      implies [- underground tile_a d; underground tile_b d] [[- is_empty tile_b]] ++
      implies [underground tile_a d; - underground tile_b d] [[- is_empty tile_a]]
  end.
(** optimisations.py 111-130: shrink_underground. *)
Definition shrink_underground (g : grid) : cnf :=
  flat_map (fun p => flat_map (shrink_at g p) directions) (iterate_tiles (geo g)).
