(** When two pictures of a cell look alike, and the value that a path leads to. *)
From Coq Require Import String ZArith QArith List.
From Verif Require Import M_Json M_Render.
Import ListNotations.
Open Scope Z_scope.

Definition same_pair (a b : Q * Q) : Prop := (fst a == fst b /\ snd a == snd b)%Q.
Definition look_alike (a b : drawing) : Prop :=
  match a, b with
  | Entry s c r o l u, Entry s' c' r' o' l' u' => s = s' /\ c = c' /\ r = r' /\ same_pair o o' /\ same_pair l l' /\ same_pair u u'
  | Arm k d r h, Arm k' d' r' h' => k = k' /\ d = d' /\ (r == r')%Q /\ h = h'
  | _, _ => False
  end.
Definition pictures_alike (a b : list drawing * list drawing) : Prop := Forall2 look_alike (fst a) (fst b) /\ Forall2 look_alike (snd a) (snd b).

(** The value under a path: a name leads into a dictionary, a number into a list. *)
Inductive leads (int_of : string -> option Z) : json -> list string -> json -> Prop :=
| leads_here j : leads int_of j [] j
| leads_in piece path l j v : int_of piece = None -> assoc piece l = Some j -> leads int_of j path v -> leads int_of (JObj l) (piece :: path) v
| leads_at piece path i l j v : int_of piece = Some i -> 0 <= i -> nth_error l (Z.to_nat i) = Some j -> leads int_of j path v -> leads int_of (JArr l) (piece :: path) v.
