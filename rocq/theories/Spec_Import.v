(** What the entities of a blueprint put on which cells, in the terms of the game. *)
From Coq Require Import ZArith List Bool String.
From Verif Require Import Spec_Tile Spec_Layout M_Blueprint.
Import ListNotations.
Local Open Scope string_scope.
Open Scope Z_scope.

Definition belts : list string := ["transport-belt"; "fast-transport-belt"; "express-transport-belt"].
Definition undergrounds : list string := ["underground-belt"; "fast-underground-belt"; "express-underground-belt"].
Definition splitters : list string := ["splitter"; "fast-splitter"; "express-splitter"].
Definition short_inserters : list string :=
  ["burner-inserter"; "inserter"; "fast-inserter"; "filter-inserter"; "stack-inserter"; "stack-filter-inserter"].

(** The direction an entity has: clockwise from north in eighths of a turn. *)
Definition faces (e : entity) (d : dir) : Prop :=
  let k := match e_direction e with Some k => k | None => 0 end in
  (k mod 8) / 2 = match d with UP => 0 | RIGHT => 1 | DOWN => 2 | LEFT => 3 end.
(** The cell in which its centre is; positions are doubled. *)
Definition cell (e : entity) : Z * Z := (e_x2 e / 2, e_y2 e / 2).
(** To the right of who looks in a direction. *)
Definition right_hand (d : dir) : dir := match d with UP => RIGHT | RIGHT => DOWN | DOWN => LEFT | LEFT => UP end.

Inductive puts (e : entity) : Z * Z -> tile -> Prop :=
| puts_belt n d : e_name e = Some n -> In n belts -> faces e d -> puts e (cell e) (Belt d d)
| puts_underground n d k : e_name e = Some n -> In n undergrounds -> faces e d -> e_type e = Some k ->
    puts e (cell e) (Underground d (String.eqb k "input"))
| puts_right n d : e_name e = Some n -> In n splitters -> faces e d ->
    puts e ((e_x2 e + step_x (right_hand d)) / 2, (e_y2 e + step_y (right_hand d)) / 2) (Splitter d true)
| puts_left n d : e_name e = Some n -> In n splitters -> faces e d ->
    puts e ((e_x2 e - step_x (right_hand d)) / 2, (e_y2 e - step_y (right_hand d)) / 2) (Splitter d false)
| puts_inserter n d : e_name e = Some n -> In n short_inserters -> faces e d -> puts e (cell e) (Inserter (opposite d) 0)
| puts_long d : e_name e = Some "long-handed-inserter" -> faces e d -> puts e (cell e) (Inserter (opposite d) 1)
| puts_machine n i j : e_name e = Some ("assembling-machine-" ++ n) -> 0 <= i <= 2 -> 0 <= j <= 2 ->
    puts e (fst (cell e) - 1 + i, snd (cell e) - 1 + j) (Assembler i j)
| puts_chest : e_name e = Some "wooden-chest" -> puts e (cell e) Filler.

(** [u] is what was put, where belts may bend. *)
Definition bent (t u : tile) : Prop := match t with Belt _ d => exists i, u = Belt i d | _ => u = t end.
