(** Model of rotate.py.  A grid is the decoded JSON: a list of rows. *)
From Coq Require Import ZArith List Bool String.
From Verif Require Import Spec_Tile M_Json M_Tile.
Import ListNotations.
Local Open Scope string_scope.

(** Row length of a rectangular grid (numpy's shape[1]). *)
Definition gw {A} (g : list (list A)) : nat := List.length (hd [] g).

(** numpy.transpose of a rectangular two dimensional array. [d] is never
    returned for rectangular arrays. *)
Definition transpose {A} (d : A) (g : list (list A)) : list (list A) :=
  map (fun j => map (fun row => nth j row d) g) (seq 0 (gw g)).

(** rotate.py 11-17: the operations. *)
Inductive operation := NO_OP | ROT_90 | ROT_180 | ROT_270 | FLIP_X | FLIP_Y.

(** rotate.py 12-17, second components. numpy.rot90 is written as in numpy:
    k=1 transpose(flip(m, 1)), k=2 flip(flip(m, 0), 1), k=3 flip(transpose(m), 1). *)
Definition grid_op {A} (d : A) (o : operation) (g : list (list A)) : list (list A) :=
  match o with
  | NO_OP => g
  | ROT_90 => transpose d (map (@rev A) g)
  | ROT_180 => map (@rev A) (rev g)
  | ROT_270 => map (@rev A) (transpose d g)
  | FLIP_X => map (@rev A) g
  | FLIP_Y => rev g
  end.

(** rotate.py 12-17, first components. *)
Definition tile_op (o : operation) (t : tile) : option tile :=
  match o with
  | NO_OP => Some t
  | ROT_90 => rotate_90 t
  | ROT_180 => rotate_180 t
  | ROT_270 => rotate_270 t
  | FLIP_X => flip_x t
  | FLIP_Y => flip_y t
  end.

(** rotate.py 34-36: body of the loop over the cells. *)
Definition cell_op (o : operation) (cell : json) : option json :=
  let* tj := jget "tile" cell in
  let* t := tile_read tj in
  if transformable t then
    let* t' := tile_op o t in jset "tile" (tile_write t') cell
  else Some cell.

(** rotate.py 31-38: one iteration of main: the decoded input line to the
    printed value (an exception is None). *)
Definition rotate_line (o : operation) (solution : list (list json)) : option (list (list json)) :=
  omap (omap (cell_op o)) (grid_op JNull o solution).
