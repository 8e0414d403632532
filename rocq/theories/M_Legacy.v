(** Model of blueprint.py: read_tile with its older formats, and the command
    "blueprint encode" on what it reads. *)
From Coq Require Import ZArith List Bool String.
From Verif Require Import M_Json Spec_Tile M_Tile M_Blueprint.
Import ListNotations.
Open Scope Z_scope.
Open Scope string_scope.

(** What read_tile returns: a tile whose directions are Directions, or one whose
    fields are the values of the record as they are (lines 206-252 never call
    Direction). *)
Inductive old_tile : Type :=
| OldEmpty
| OldBelt (input_direction output_direction : json)
| OldUnderground (direction : json) (is_input : bool)
| OldSplitter (direction is_head : json)
| OldInserter (direction type : json)
| OldMachine (x y : json).
Inductive cell := New (t : tile) | Old (t : old_tile).

(** bool(value) *)
Definition truthy (j : json) : bool :=
  match j with
  | JNull => false
  | JBool b => b
  | JNum n => negb (Z.eqb n 0)
  | JStr s => negb (String.eqb s "")
  | JArr l => match l with [] => false | _ => true end
  | JObj l => match l with [] => false | _ => true end
  end.
Definition is_null (j : json) : bool := match j with JNull => true | _ => false end.
Definition is_false (j : json) : bool := match j with JBool false => true | _ => false end.

(** tile.py 84-86 on such a value: of the values of json only a list has an
    attribute "reverse", a method, which equals none of them. *)
Definition old_belt (i o : json) : option old_tile :=
  match i with JArr _ => Some (OldBelt i o) | _ => None end.
(** tile.py 198-200: the comparison of a value with numbers; True is 1. *)
Definition below_three (j : json) : bool :=
  match j with JNum n => (Z.leb 0 n) && (Z.ltb n 3) | JBool _ => true | _ => false end.
Definition old_machine (x y : json) : option old_tile :=
  if below_three x && below_three y then Some (OldMachine x y) else None.

Definition has_key (k : string) (j : json) : bool := match jget k j with Some _ => true | None => false end.

(** blueprint.py 208-234: the format with a mark for each kind. *)
Definition read_marked (item input_direction output_direction : json) : option old_tile :=
  let* is_empty := jget "is_empty" item in
  if truthy is_empty then Some OldEmpty else
  let* is_belt := jget "is_belt" item in
  if truthy is_belt then
    let* i := if is_null input_direction then jget "colour_direction" item else Some input_direction in
    let* o := if is_null output_direction then jget "colour_direction" item else Some output_direction in
    if is_null i && is_null o then None else old_belt i o
  else
  let* is_in := jget "is_underground_in" item in
  if truthy is_in then Some (OldUnderground input_direction true) else
  let* is_out := jget "is_underground_out" item in
  if truthy is_out then Some (OldUnderground output_direction false) else
  let* is_splitter := jget "is_splitter" item in
  if negb (is_null is_splitter) && negb (is_false is_splitter) then
    match jget "colour_direction" item with
    | Some d => Some (OldSplitter d is_splitter)
    | None => let* d := jget "splitter_direction" item in let* s := jget "splitter_side" item in Some (OldSplitter d s)
    end
  else
  let* is_inserter := jget "is_inserter" item in
  if negb (is_null is_inserter) then let* d := jget "inserter_direction" item in Some (OldInserter d is_inserter) else
  let* is_machine := jget "is_assembling_machine" item in
  if truthy is_machine then let* x := jget "assembling_x" item in let* y := jget "assembling_y" item in old_machine x y
  else None.

(** blueprint.py 236-251: the plain format. *)
Definition read_plain (item input_direction output_direction : json) : option old_tile :=
  let* is_splitter := jget "is_splitter" item in
  if truthy is_splitter then
    let direction := if is_null input_direction then output_direction else input_direction in
    if is_null direction then None else
    let* head := jget "is_splitter_head" item in Some (OldSplitter direction head)
  else if is_null input_direction && is_null output_direction then Some OldEmpty
  else if is_null input_direction || is_null output_direction then
    Some (OldUnderground (if is_null input_direction then output_direction else input_direction) (is_null output_direction))
  else old_belt input_direction output_direction.

(** blueprint.py 202-252: read_tile. A value that is no dictionary raises. *)
Definition read_item (item : json) : option cell :=
  match jget "tile" item with
  | Some j => let* t := tile_read j in Some (New t)
  | None =>
      let* i := jget "input_direction" item in
      let* o := jget "output_direction" item in
      let* t := if has_key "is_empty" item then read_marked item i o else read_plain item i o in
      Some (Old t)
  end.

(** blueprint.py 61-104 on such a cell: no value of json has the attribute
    "factorio_direction" (68, 74, 84, 99); the second half of a splitter is passed
    over before (80-81), a machine is refused (103). *)
Definition cell_entity (l : level) (n : Z) (c : (Z * Z) * cell) : option (option entity) :=
  match snd c with
  | New t => tile_entity l n (fst c, t)
  | Old OldEmpty => Some None
  | Old (OldSplitter _ is_head) => if truthy is_head then None else Some None
  | Old _ => None
  end.
(** blueprint.py 60: np.ndenumerate. *)
Fixpoint cells_row (x y : Z) (r : list cell) : list ((Z * Z) * cell) :=
  match r with [] => [] | t :: r' => ((x, y), t) :: cells_row (x + 1) y r' end.
Fixpoint cells_rows (y : Z) (g : list (list cell)) : list ((Z * Z) * cell) :=
  match g with [] => [] | r :: g' => (cells_row 0 y r ++ cells_rows (y + 1) g')%list end.
Fixpoint cell_entities (l : level) (n : Z) (cs : list ((Z * Z) * cell)) : option (list entity) :=
  match cs with
  | [] => Some []
  | c :: r =>
    let* oe := cell_entity l n c in
    match oe with
    | None => cell_entities l n r
    | Some e => let* es := cell_entities l (n + 1) r in Some (e :: es)
    end
  end.
(** blueprint.py 288-290: the entities of one line of "blueprint encode".
    Simplification: the rows are rows of equal length and there is one cell at
    least, else numpy builds no array of cells or np.vectorize raises. *)
Definition encode_line (l : level) (rows : list (list json)) : option (list entity) :=
  let* g := omap (omap read_item) rows in cell_entities l 1 (cells_rows 0 g).
