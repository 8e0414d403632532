(** Where the quarter turns and mirror images send cells and directions:
    plain geometry of a [w] x [h] rectangle with the y axis pointing down. *)
From Coq Require Import ZArith List Bool.
From Verif Require Import Spec_Tile Spec_Layout.
Open Scope Z_scope.

Inductive symmetry := Identity | Turn90 | Turn180 | Turn270 | MirrorX | MirrorY.

(** Turns are anticlockwise; MirrorX exchanges left and right. *)
Definition image_pos (s : symmetry) (A : area) (p : pos) : pos :=
  let (x, y) := p in
  match s with
  | Identity => (x, y)
  | Turn90 => (y, aw A - 1 - x)
  | Turn180 => (aw A - 1 - x, ah A - 1 - y)
  | Turn270 => (ah A - 1 - y, x)
  | MirrorX => (aw A - 1 - x, y)
  | MirrorY => (x, ah A - 1 - y)
  end.

Definition image_dir (s : symmetry) (d : dir) : dir :=
  match s with
  | Identity => d
  | Turn90 => anticlockwise d
  | Turn180 => opposite d
  | Turn270 => clockwise d
  | MirrorX => match d with RIGHT => LEFT | LEFT => RIGHT | _ => d end
  | MirrorY => match d with UP => DOWN | DOWN => UP | _ => d end
  end.

Definition image_area (s : symmetry) (A : area) : area :=
  match s with
  | Turn90 | Turn270 => {| aw := ah A; ah := aw A; wrapx := wrapy A; wrapy := wrapx A |}
  | _ => A
  end.

(** A mirror image exchanges the two halves of a splitter. *)
Definition mirrors (s : symmetry) : bool := match s with MirrorX | MirrorY => true | _ => false end.

Definition image_tile (s : symmetry) (t : tile) : tile :=
  match t with
  | Belt i o => Belt (image_dir s i) (image_dir s o)
  | Underground d e => Underground (image_dir s d) e
  | Splitter d h => Splitter (image_dir s d) (xorb (mirrors s) h)
  | Inserter d k => Inserter (image_dir s d) k
  | other => other
  end.

(** A layout read from a list of rows. *)
Definition layout_of (g : list (list tile)) : layout :=
  fun p => List.nth (Z.to_nat (fst p)) (List.nth (Z.to_nat (snd p)) g nil) Empty.
