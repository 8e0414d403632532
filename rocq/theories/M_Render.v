(** Model of render.py: render_tile, get_animation_length and the attributes of
    --show-raw; of tilemaps.py: Tilemap.render. *)
From Coq Require Import String Ascii ZArith QArith Qabs List Bool.
From Verif Require Import M_Json Spec_Tile M_Tile.
Import ListNotations.
Open Scope Z_scope.

(** tilemaps.py 88-111: the images; those of inserters come in two kinds. *)
Inductive sheet := BELT | UNDERGROUND | SPLITTER_EAST | SPLITTER_EAST_PATCH | SPLITTER_WEST | SPLITTER_WEST_PATCH
  | SPLITTER_NORTH | SPLITTER_SOUTH | INSERTER_PLATFORM (long : bool) | ASSEMBLING_MACHINE.
(** What is drawn into a cell: an entry of a sheet, of which a part, moved by an
    offset; or an arm, of which kind, in which direction, how far out, and whether
    the hand is closed. The angles of the arm, 203-236, follow from these. *)
Inductive drawing :=
| Entry (s : sheet) (column row : Z) (offset lower upper : Q * Q)
| Arm (long : bool) (d : dir) (reach : Q) (closed : bool).
Definition whole (s : sheet) (column row : Z) (offset : Q * Q) : drawing := Entry s column row offset (0, 0)%Q (1, 1)%Q.

Inductive layer := BOTTOM | TOP.

(** table[i], for 0 <= i. *)
Definition at_ (table : list Z) (i : Z) : option Z := nth_error table (Z.to_nat i).

(** render.py 100-102: the rows of belts. *)
Definition belt_rows : list (list Z) := [[11; 8; 4; 7]; [0; 2; 1; 3]; [6; 10; 9; 5]].
(** 108 and 113. *)
Definition tunnel_rows : list (list Z) := [[14; 12; 18; 16]; [19; 17; 15; 13]].
Definition tunnel_columns : list (list Z) := [[3; 2; 1; 0]; [1; 0; 3; 2]].
Definition Z_of_bool (b : bool) : Z := if b then 1 else 0.
Definition at2 (table : list (list Z)) (i j : Z) : option Z := let* r := nth_error table (Z.to_nat i) in at_ r j.

(** render.py 177-184: how far the arm is out, and the reading 194 of its angle,
    which raises outside of the domain of asin. *)
Definition reach (long : bool) (animation : Z) : Q := ((Qabs (1 - (animation # 16)) - (1 # 2)) * (if long then 15 # 4 else 3 # 2))%Q.

(** render.py 95-241: render_tile. *)
Definition render_tile (t : tile) (animation : Z) (l : layer) : option (list drawing) :=
  let column := animation mod 8 in
  let row := (animation / 8) mod 4 in
  match t, l with
  | Belt i o, BOTTOM =>
      let* y := at2 belt_rows ((dir_value o - dir_value i + 1) mod 4) (dir_value i) in
      Some [whole BELT (animation mod 16) y (- (1 # 2), - (1 # 2))%Q]
  | Belt _ _, TOP => Some []
  | Underground d e, BOTTOM =>
      let* y := at2 tunnel_rows (Z_of_bool e) (dir_value d) in
      Some [whole BELT (animation mod 16) y (- (1 # 2), - (1 # 2))%Q]
  | Underground d e, TOP =>
      let* x := at2 tunnel_columns (Z_of_bool e) (dir_value d) in
      Some [whole UNDERGROUND x (Z_of_bool e) (- (1), - (1))%Q]
  | Splitter d _, BOTTOM =>
      let* y := at_ [0; 2; 1; 3] (dir_value d) in
      Some [whole BELT (animation mod 16) y (- (1 # 2), - (1 # 2))%Q]
  | Splitter RIGHT head, TOP =>
      Some [if head then whole SPLITTER_EAST column row (0, - (5 # 16))%Q else whole SPLITTER_EAST_PATCH column row (0, - (1 # 2))%Q]
  | Splitter LEFT head, TOP =>
      Some [if head then whole SPLITTER_WEST_PATCH column row (0, - (5 # 16))%Q else whole SPLITTER_WEST column row (0, - (5 # 16))%Q]
  | Splitter UP head, TOP =>
      Some [if head then Entry SPLITTER_NORTH column row (0, 0)%Q (13 # 32, 0)%Q (1, 1)%Q else Entry SPLITTER_NORTH column row (0, 0)%Q (0, 0)%Q (13 # 32, 1)%Q]
  | Splitter DOWN head, TOP =>
      Some [if head then Entry SPLITTER_SOUTH column row (- (4 # 32) - (1 # 32), 0)%Q (0, 0)%Q (14 # 32, 1)%Q else Entry SPLITTER_SOUTH column row (- (4 # 32), 0)%Q (14 # 32, 0)%Q (1, 1)%Q]
  | Inserter d k, BOTTOM =>
      (* a tuple of two: the indices 0, 1 and, counted from the end, -2, -1 *)
      let* long := if (k =? 0) || (k =? -2) then Some false else if (k =? 1) || (k =? -1) then Some true else None in
      Some [whole (INSERTER_PLATFORM long) ((1 - dir_value d) mod 4) 0 (- (19 # 64), (3 # 64))%Q]
  | Inserter d k, TOP =>
      let* long := if k =? 0 then Some false else if k =? 1 then Some true else None in
      let r := reach long animation in
      if Qle_bool (Qabs r) 2 then Some [Arm long d r (16 <? animation)] else None
  | Assembler x y, BOTTOM =>
      let* (ox, lx, ux) := if x =? 0 then Some (- (15 # 64), 0, 12 # 32)%Q else if x =? 1 then Some (0, 12 # 32, 216 # 320)%Q else if x =? 2 then Some (0, 216 # 320, 1)%Q else None in
      let* (oy, ly, uy) := if y =? 0 then Some (- (27 # 128), 21 # 32, 1)%Q else if y =? 1 then Some (0, 47 # 128, 21 # 32)%Q else if y =? 2 then Some (0, 0, 47 # 128)%Q else None in
      Some [Entry ASSEMBLING_MACHINE column row (ox, oy) (lx, ly) (ux, uy)]
  | Assembler _ _, TOP => Some []
  | (Empty | Filler), _ => None
  end.

(** render.py 264-291: the drawings of one cell, both layers; empty cells and
    fillers are passed over (269-270). *)
Definition render_cell (t : tile) (animation : Z) : option (list drawing * list drawing) :=
  match t with
  | Empty | Filler => Some ([], [])
  | _ => let* b := render_tile t animation BOTTOM in let* u := render_tile t animation TOP in Some (b, u)
  end.

(** tilemaps.py 51-72: the texture coordinates that an entry is read from, for a
    sheet of [columns] by [rows] entries: left, lower, right, upper end. *)
Definition texture (columns rows : Z) (x y : Z) (lower upper : Q * Q) : Q * Q * (Q * Q) :=
  let y := rows - y - 1 in
  (((inject_Z x + fst lower) / inject_Z columns, (inject_Z y + snd lower) / inject_Z rows),
   ((inject_Z x + fst upper) / inject_Z columns, (inject_Z y + snd upper) / inject_Z rows))%Q.

(** render.py 82-86: get_animation_length. *)
Definition is_true (j : option json) : bool := match j with Some (JBool true) => true | _ => false end.
Definition splitter_item (item : json) : bool :=
  is_true (jget "is_splitter" item) ||
  match jget "tile" item with
  | Some t => match jget "type" t with Some (JStr s) => String.eqb s "splitter" | _ => false end
  | None => false
  end.
Definition get_animation_length (items : list json) : Z := if existsb splitter_item items then 32 else 16.

Section Attributes.
  (** int(piece), None for a ValueError. *)
  Variable int_of : string -> option Z.
  (** sub_item.get(piece): None for an AttributeError; null if there is no such key. *)
  Definition dict_get (piece : string) (j : json) : option json :=
    match j with JObj l => Some (match assoc piece l with Some v => v | None => JNull end) | _ => None end.
  (** render.py 352-361: one attribute of --show-raw. [item] is a dictionary: its
      keys are strings, so that item[int(piece)] raises a KeyError. *)
  Fixpoint attribute (item sub_item : json) (pieces : list string) : option json :=
    match pieces with
    | [] => Some sub_item
    | piece :: r =>
        match int_of piece with
        | Some _ => None
        | None => let* j := dict_get piece sub_item in attribute item j r
        end
    end.
  Definition show_raw (item : json) (pieces : list string) : option json := attribute item item pieces.
End Attributes.
