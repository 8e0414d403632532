(** Colours of cells as the solver prints them, and when two paints look alike. *)
From Coq Require Import String ZArith QArith List.
From Verif Require Import M_Json.
Import ListNotations.
Open Scope Z_scope.

(** Red, green and blue, as numbers. *)
Definition alike (a b : Q * Q * Q) : Prop :=
  (fst (fst a) == fst (fst b) /\ snd (fst a) == snd (fst b) /\ snd a == snd b)%Q.

(** The colour of a cell under a key: a number, or null; the first one of a list;
    0 if there is none. *)
Inductive colour_under (key : string) (cell : json) : option Z -> Prop :=
| absent : jget key cell = None -> colour_under key cell (Some 0)
| number n : jget key cell = Some (JNum n) -> colour_under key cell (Some n)
| null : jget key cell = Some JNull -> colour_under key cell None
| first_number n l : jget key cell = Some (JArr (JNum n :: l)) -> colour_under key cell (Some n)
| first_null l : jget key cell = Some (JArr (JNull :: l)) -> colour_under key cell None.

Definition keys : list string := ["colour"; "colour_ux"; "colour_uy"]%string.
Definition simple (v : json) : Prop := v = JNull \/ exists n, v = JNum n.
(** Each of the three is a colour or a list of colours that is not empty. *)
Definition coloured (cell : json) : Prop := forall key, In key keys ->
  jget key cell = None \/ (exists v, jget key cell = Some v /\ simple v) \/
  (exists v l, jget key cell = Some (JArr (v :: l)) /\ Forall simple (v :: l)).
(** A number that occurs as one of the colours. *)
Definition occurs (n : Z) (cell : json) : Prop := exists key, In key keys /\
  (jget key cell = None /\ n = 0 \/ jget key cell = Some (JNum n) \/ exists l, jget key cell = Some (JArr l) /\ In (JNum n) l).
