(** Points in rectangles and in cells. *)
From Coq Require Import ZArith QArith.
From Verif Require Import Spec_Tile.
Definition between (a x b : Q) : Prop := (a <= x /\ x <= b)%Q.
(** In the rectangle with these two corners. *)
Definition within (p : Q * Q) (r : Q * Q * (Q * Q)) : Prop :=
  between (fst (fst r)) (fst p) (fst (snd r)) /\ between (snd (fst r)) (snd p) (snd (snd r)).
(** In the block of [n] by [n] cells whose left upper cell is [c]. *)
Definition in_block (n : Z) (c : Z * Z) (p : Q * Q) : Prop :=
  between (inject_Z (fst c)) (fst p) (inject_Z (fst c + n)) /\ between (inject_Z (snd c)) (snd p) (inject_Z (snd c + n)).
