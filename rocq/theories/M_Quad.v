(** Model of tilemaps.py 49-86 and 89-117: where an entry of an image is drawn. *)
From Coq Require Import ZArith QArith List Bool.
From Verif Require Import M_Json Spec_Tile M_Tile M_Render.
Import ListNotations.
Open Scope Z_scope.

(** tilemaps.py 93-117: entry_size / pixels_per_unit. *)
Definition entry_size (s : sheet) : Q * Q :=
  match s with
  | BELT => (128 # 64, 128 # 64)
  | UNDERGROUND => (192 # 64, 192 # 64)
  | SPLITTER_EAST => (90 # 64, 84 # 64)
  | SPLITTER_EAST_PATCH => (90 # 64, 104 # 64)
  | SPLITTER_WEST => (90 # 64, 86 # 64)
  | SPLITTER_WEST_PATCH => (90 # 64, 96 # 64)
  | SPLITTER_SOUTH => (164 # 64, 64 # 64)
  | SPLITTER_NORTH => (160 # 64, 70 # 64)
  | INSERTER_PLATFORM _ => (105 # 64, 79 # 64)
  | ASSEMBLING_MACHINE => (214 # 64, 226 # 64)
  end%Q.
(** tilemaps.py 52-56, 69-83 with the translations of render.py 273-274 and of the
    tile: the left upper and the right lower corner of the rectangle for an entry
    drawn for the cell [c]; y grows downwards.  Simplification: of an inserter's
    arm nothing is said. *)
Definition rectangle_of (c : Z * Z) (d : drawing) : option (Q * Q * (Q * Q)) :=
  match d with
  | Entry s _ _ o l u =>
      let left := (inject_Z (fst c) + fst o)%Q in
      let top := (inject_Z (snd c) + snd o)%Q in
      Some ((left, top), (left + (fst u - fst l) * fst (entry_size s), top + (snd u - snd l) * snd (entry_size s)))%Q
  | Arm _ _ _ _ => None
  end.
