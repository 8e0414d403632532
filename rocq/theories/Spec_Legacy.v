(** The older formats of a cell: a dictionary that gives the directions of the
    tile at its top level, in numbers (0 right, 1 up, 2 left, 3 down) or null. *)
From Coq Require Import ZArith List String.
From Verif Require Import M_Json Spec_Tile.
Import ListNotations.
Open Scope Z_scope.
Open Scope string_scope.

Definition number (d : dir) : Z := match d with RIGHT => 0 | UP => 1 | LEFT => 2 | DOWN => 3 end.
Definition is (j : json) (key : string) (v : json) : Prop := jget key j = Some v.
Definition directed (j : json) (i o : option dir) : Prop :=
  is j "input_direction" (match i with Some d => JNum (number d) | None => JNull end) /\
  is j "output_direction" (match o with Some d => JNum (number d) | None => JNull end).

(** Neither empty nor a belt nor a tunnel; nor a splitter. *)
Definition unmarked (j : json) : Prop :=
  is j "is_empty" (JBool false) /\ is j "is_belt" (JBool false) /\ is j "is_underground_in" (JBool false) /\ is j "is_underground_out" (JBool false).
Definition no_splitter (j : json) : Prop := is j "is_splitter" (JBool false) \/ is j "is_splitter" JNull.

Inductive describes (j : json) : tile -> Prop :=
(** The first format: a splitter is marked, the kind of any other tile follows
    from the directions that are there. *)
| plain_empty : jget "is_empty" j = None -> is j "is_splitter" (JBool false) -> directed j None None -> describes j Empty
| plain_belt i o : jget "is_empty" j = None -> is j "is_splitter" (JBool false) -> directed j (Some i) (Some o) -> describes j (Belt i o)
| plain_entrance d : jget "is_empty" j = None -> is j "is_splitter" (JBool false) -> directed j (Some d) None -> describes j (Underground d true)
| plain_exit d : jget "is_empty" j = None -> is j "is_splitter" (JBool false) -> directed j None (Some d) -> describes j (Underground d false)
| plain_splitter d head : jget "is_empty" j = None -> is j "is_splitter" (JBool true) -> is j "is_splitter_head" (JBool head) -> directed j (Some d) (Some d) -> describes j (Splitter d head)
(** The second format: every kind of tile has its mark. *)
| marked_empty i o : is j "is_empty" (JBool true) -> directed j i o -> describes j Empty
| marked_belt i o : is j "is_empty" (JBool false) -> is j "is_belt" (JBool true) -> directed j (Some i) (Some o) -> describes j (Belt i o)
| marked_entrance d o : is j "is_empty" (JBool false) -> is j "is_belt" (JBool false) -> is j "is_underground_in" (JBool true) -> directed j (Some d) o -> describes j (Underground d true)
| marked_exit d i : is j "is_empty" (JBool false) -> is j "is_belt" (JBool false) -> is j "is_underground_in" (JBool false) -> is j "is_underground_out" (JBool true) -> directed j i (Some d) -> describes j (Underground d false)
| marked_splitter d k i o : is j "is_empty" (JBool false) -> is j "is_belt" (JBool false) -> is j "is_underground_in" (JBool false) -> is j "is_underground_out" (JBool false) ->
    is j "is_splitter" (JNum k) -> is j "colour_direction" (JNum (number d)) -> directed j i o -> (k = 0 \/ k = 1) -> describes j (Splitter d (Z.eqb k 1))
| marked_side d head i o : unmarked j -> is j "is_splitter" (JBool true) -> jget "colour_direction" j = None -> is j "splitter_direction" (JNum (number d)) -> is j "splitter_side" (JBool head) ->
    directed j i o -> describes j (Splitter d head)
| marked_inserter d k i o : unmarked j -> no_splitter j -> is j "is_inserter" (JNum k) -> is j "inserter_direction" (JNum (number d)) -> directed j i o -> describes j (Inserter d k)
| marked_machine x y i o : unmarked j -> no_splitter j -> is j "is_inserter" JNull -> is j "is_assembling_machine" (JBool true) ->
    is j "assembling_x" (JNum x) -> is j "assembling_y" (JNum y) -> 0 <= x < 3 -> 0 <= y < 3 -> directed j i o -> describes j (Assembler x y).
