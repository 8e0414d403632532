(** Entries of documents by their paths. *)
From Coq Require Import ZArith List String.
From Verif Require Import M_Json.
Import ListNotations.
(** [at_path number_of d path v]: the entry of [d] at [path] is [v]. A piece that is a
    number is the index of an element of a list, any other one the key of an entry of
    an object. *)
Inductive at_path (number_of : string -> option Z) : json -> list string -> json -> Prop :=
| here d : at_path number_of d [] d
| key p l d path v : number_of p = None -> assoc p l = Some d -> at_path number_of d path v -> at_path number_of (JObj l) (p :: path) v
| index p n l d path v : number_of p = Some (Z.of_nat n) -> nth_error l n = Some d -> at_path number_of d path v -> at_path number_of (JArr l) (p :: path) v.
