(** Vocabulary for the blueprint theorems, independent of the model. *)
From Coq Require Import ZArith List Bool.
From Verif Require Import Spec_Tile Spec_Layout.
Open Scope Z_scope.

(** A closed rectangle. *)
Definition closed (w h : Z) : area := {| aw := w; ah := h; wrapx := false; wrapy := false |}.

(** Cells that put nothing into a blueprint. *)
Definition blank (t : tile) : Prop := match t with Empty | Filler => True | _ => False end.

(** Tiles with a blueprint form. *)
Definition blueprintable (t : tile) : Prop :=
  match t with
  | Empty | Filler | Underground _ _ | Splitter _ _ => True
  | Belt i o => o <> opposite i
  | Inserter _ k => k = 0 \/ k = 1
  | Assembler _ _ => False
  end.

(** Some tile pushes items moving in direction [d] into [p]. *)
Definition fed_from (A : area) (T : layout) (p : pos) (d : dir) : Prop :=
  exists q, neighbour A p (opposite d) = Some q /\ pushes (T q) d.

(** Factorio draws a belt as a curve when exactly one tile feeds it: the input
    direction of a belt at [p] with output [o]. *)
Definition inferred_input (A : area) (T : layout) (p : pos) (o i : dir) : Prop :=
  (fed_from A T p i /\ forall d, fed_from A T p d -> d = i) \/
  (i = o /\ ~ exists d, fed_from A T p d /\ forall e, fed_from A T p e -> e = d).

Definition inputs_inferred (A : area) (T : layout) : Prop :=
  forall p i o, inside A p -> T p = Belt i o -> inferred_input A T p o i.

(** Filler tiles are not recorded in a blueprint. *)
Definition unfill (t : tile) : tile := match t with Filler => Empty | other => other end.

(** [x0, y0, w, h] is the bounding box of the non-blank cells. *)
Definition bounding_box (A : area) (T : layout) (x0 y0 w h : Z) : Prop :=
  (forall x y, inside A (x, y) -> ~ blank (T (x, y)) -> x0 <= x < x0 + w /\ y0 <= y < y0 + h) /\
  (exists y, inside A (x0, y) /\ ~ blank (T (x0, y))) /\
  (exists y, inside A (x0 + w - 1, y) /\ ~ blank (T (x0 + w - 1, y))) /\
  (exists x, inside A (x, y0) /\ ~ blank (T (x, y0))) /\
  (exists x, inside A (x, y0 + h - 1) /\ ~ blank (T (x, y0 + h - 1))).

(** Factorio's numbering of directions: clockwise in eighths of a turn from
    north; a missing key means north. *)
Definition compass (d : dir) : option Z :=
  match d with UP => None | RIGHT => Some 2 | DOWN => Some 4 | LEFT => Some 6 end.

(** Cells that get an entity of their own: everything but blank cells and the
    second half of a splitter. *)
Definition has_entity (t : tile) : Prop :=
  match t with Empty | Filler | Splitter _ false => False | _ => True end.
