(** Model of direction.py and tile.py. *)
From Coq Require Import ZArith List Bool String.
From Verif Require Import Spec_Tile M_Json.
Import ListNotations.
Local Open Scope string_scope.
Open Scope Z_scope.

(** direction.py 6-10: the enum values. *)
Definition dir_value (d : dir) : Z :=
  match d with RIGHT => 0 | UP => 1 | LEFT => 2 | DOWN => 3 end.

(** direction.py 6: calling the enum class on a value (ValueError -> None). *)
Definition dir_of_value (v : Z) : option dir :=
  if v =? 0 then Some RIGHT else if v =? 1 then Some UP
  else if v =? 2 then Some LEFT else if v =? 3 then Some DOWN else None.

(** direction.py 12-13: vec. *)
Definition dir_vec (d : dir) : Z * Z :=
  nth (Z.to_nat (dir_value d)) [(1, 0); (0, -1); (-1, 0); (0, 1)] (0, 0).

(** direction.py 26-32: dx, dy. *)
Definition dx (d : dir) : Z := fst (dir_vec d).
Definition dy (d : dir) : Z := snd (dir_vec d).

(** direction.py 15-17: from_factorio. *)
Definition from_factorio (f : Z) : option dir := dir_of_value ((1 - f / 2) mod 4).

(** direction.py 19-21: add. *)
Definition dir_add (d : dir) (r : Z) : option dir := dir_of_value ((dir_value d + r) mod 4).

(** [dir_add] always succeeds (lemma [dir_add_some]); this strips the option
    so that the properties below are total. *)
Definition dir_add' (d : dir) (r : Z) : dir := match dir_add d r with Some e => e | None => d end.

(** direction.py 34-44: next, prev, reverse. *)
Definition next (d : dir) : dir := dir_add' d 1.
Definition prev (d : dir) : dir := dir_add' d (-1).
Definition reverse (d : dir) : dir := dir_add' d 2.

(** direction.py 46-48: factorio_direction. *)
Definition factorio_direction (d : dir) : Z := ((1 - dir_value d) mod 4) * 2.

(** direction.py 50-65: axis, as HORIZONTAL = true / VERTICAL = false. *)
Definition axis (d : dir) : Z := dir_value d mod 2.
Definition is_horizontal (d : dir) : bool := axis d =? 0.

(** direction.py 63-65: Axis.directions. *)
Definition axis_directions (ax : Z) : option (dir * dir) :=
  let* a := dir_of_value ax in let* b := dir_of_value (ax + 2) in Some (a, b).

(** tile.py 71-86: Belt.__post_init__ (line 84: RuntimeError -> None). *)
Definition mk_belt (i o : dir) : option tile :=
  if dir_eqb (reverse i) o then None else Some (Belt i o).

(** tile.py 198-200: AssemblingMachine.__post_init__. *)
Definition mk_assembler (x y : Z) : option tile :=
  if ((0 <=? x) && (x <? 3)) && ((0 <=? y) && (y <? 3)) then Some (Assembler x y) else None.

(** tile.py 67-68: flip_x_direction. *)
Definition flip_x_direction (d : dir) : dir := if is_horizontal d then reverse d else d.

(** tile.py 27-41: is the tile a TransformableTile. *)
Definition transformable (t : tile) : bool :=
  match t with Belt _ _ | Underground _ _ | Splitter _ _ | Inserter _ _ => true | _ => false end.

(** tile.py 81, 118, 151, 176: rotate_90 of each class (NotImplemented for
    tiles that are not transformable -> None). *)
Definition rotate_90 (t : tile) : option tile :=
  match t with
  | Belt i o => mk_belt (next i) (next o)
  | Underground d e => Some (Underground (next d) e)
  | Splitter d h => Some (Splitter (next d) h)
  | Inserter d k => Some (Inserter (next d) k)
  | _ => None
  end.

(** tile.py 78, 115, 148, 173: flip_x of each class. *)
Definition flip_x (t : tile) : option tile :=
  match t with
  | Belt i o => mk_belt (flip_x_direction i) (flip_x_direction o)
  | Underground d e => Some (Underground (flip_x_direction d) e)
  | Splitter d h => Some (Splitter (flip_x_direction d) (negb h))
  | Inserter d k => Some (Inserter (flip_x_direction d) k)
  | _ => None
  end.

(** tile.py 34-41: rotate_180, rotate_270, flip_y. *)
Definition rotate_180 (t : tile) : option tile := let* a := rotate_90 t in rotate_90 a.
Definition rotate_270 (t : tile) : option tile := let* a := rotate_180 t in rotate_90 a.
Definition flip_y (t : tile) : option tile :=
  let* a := rotate_90 t in let* b := flip_x a in rotate_270 b.

(** tile.py 62-64, 106-112, 139-145: input_direction / output_direction. *)
Definition input_direction (t : tile) : option dir :=
  match t with
  | Belt i _ => Some i
  | Underground d e => if e then Some d else None
  | Splitter d _ => Some d
  | _ => None
  end.
Definition output_direction (t : tile) : option dir :=
  match t with
  | Belt _ o => Some o
  | Underground d e => if e then None else Some d
  | Splitter d _ => Some d
  | _ => None
  end.

(** tile.py 19-20 and the write methods 88-93, 121-126, 154-159, 179-184,
    202-207. *)
Definition tile_write (t : tile) : json :=
  match t with
  | Empty => JObj [("type", JStr "empty")]
  | Filler => JObj [("type", JStr "filler")]
  | Belt i o => JObj [("type", JStr "belt"); ("input_direction", JNum (dir_value i));
                      ("output_direction", JNum (dir_value o))]
  | Underground d e => JObj [("type", JStr "underground_belt"); ("direction", JNum (dir_value d));
                             ("is_input", JBool e)]
  | Splitter d h => JObj [("type", JStr "splitter"); ("direction", JNum (dir_value d));
                          ("is_head", JBool h)]
  | Inserter d k => JObj [("type", JStr "inserter"); ("direction", JNum (dir_value d));
                          ("insert_type", JNum k)]
  | Assembler x y => JObj [("type", JStr "assembling_machine"); ("x", JNum x); ("y", JNum y)]
  end.

Definition jdir (k : string) (j : json) : option dir :=
  let* v := jget k j in let* n := jnum v in dir_of_value n.

(** tile.py 22-24 and the read methods 48-50, 57-59, 95-97, 128-130, 161-163,
    186-188, 209-211. Simplification: the boolean and integer fields, which
    Python stores whatever their JSON type, must have the declared type. *)
Definition tile_read (j : json) : option tile :=
  let* ty := jget "type" j in
  let* s := jstr ty in
  if String.eqb s "empty" then Some Empty
  else if String.eqb s "filler" then Some Filler
  else if String.eqb s "belt" then
    let* i := jdir "input_direction" j in let* o := jdir "output_direction" j in mk_belt i o
  else if String.eqb s "underground_belt" then
    let* d := jdir "direction" j in let* v := jget "is_input" j in let* b := jbool v in
    Some (Underground d b)
  else if String.eqb s "splitter" then
    let* d := jdir "direction" j in let* v := jget "is_head" j in let* b := jbool v in
    Some (Splitter d b)
  else if String.eqb s "inserter" then
    let* d := jdir "direction" j in let* v := jget "insert_type" j in let* n := jnum v in
    Some (Inserter d n)
  else if String.eqb s "assembling_machine" then
    let* vx := jget "x" j in let* x := jnum vx in
    let* vy := jget "y" j in let* y := jnum vy in mk_assembler x y
  else None.
