(** Tiles and directions: plain data, and the facts a reader needs in order to
    read the property theorems.  Nothing here refers to the model. *)
From Coq Require Import ZArith List Bool.
Import ListNotations.
Open Scope Z_scope.

Inductive dir : Type := RIGHT | UP | LEFT | DOWN.

(** Displacement of one step; the y axis points down the screen. *)
Definition step_x (d : dir) : Z := match d with RIGHT => 1 | LEFT => -1 | _ => 0 end.
Definition step_y (d : dir) : Z := match d with DOWN => 1 | UP => -1 | _ => 0 end.

Definition opposite (d : dir) : dir :=
  match d with RIGHT => LEFT | LEFT => RIGHT | UP => DOWN | DOWN => UP end.

Definition same_axis (d e : dir) : bool :=
  match d, e with
  | (RIGHT | LEFT), (RIGHT | LEFT) => true
  | (UP | DOWN), (UP | DOWN) => true
  | _, _ => false
  end.

Definition dir_eqb (d e : dir) : bool :=
  match d, e with
  | RIGHT, RIGHT | UP, UP | LEFT, LEFT | DOWN, DOWN => true
  | _, _ => false
  end.

(** The kinds of tile. [Belt i o] carries items moving in direction [i] when
    they arrive and [o] when they leave. [Underground d b] is the entrance
    ([b = true]) or exit of a tunnel running in direction [d].
    [Splitter d head] is one half of a splitter facing [d]; for a splitter
    facing right the head half is the lower one (see [Spec_Layout]).
    [Assembler x y] is the cell with offset [(x, y)] of a 3x3 machine. *)
Inductive tile : Type :=
| Empty
| Filler
| Belt (i o : dir)
| Underground (d : dir) (entrance : bool)
| Splitter (d : dir) (head : bool)
| Inserter (d : dir) (kind : Z)
| Assembler (x y : Z).

(** Tiles that the tile classes can represent: a belt cannot leave through the
    side it came from, an assembler offset lies inside the machine. *)
Definition valid_tile (t : tile) : Prop :=
  match t with
  | Belt i o => o <> opposite i
  | Assembler x y => 0 <= x < 3 /\ 0 <= y < 3
  | _ => True
  end.
