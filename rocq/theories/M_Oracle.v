(** Model of the calls into pysat's CardEnc (cardinality.py 50-69).

    CardEnc is a foreign library.  It is modelled as a record of functions that
    may raise or return clauses and the new top variable of the pool; what the
    theorems assume of it is the predicate [honest], which they state as a
    hypothesis.  [naive_encoder] shows that the hypothesis can be met. *)
From Coq Require Import ZArith List Bool.
From Verif Require Import Spec_Cnf M_Util.
Import ListNotations.
Open Scope Z_scope.

Record card_encoder := {
  enc_equals : list lit -> Z -> Z -> option (cnf * Z);
  enc_atmost : list lit -> Z -> Z -> option (cnf * Z);
  enc_atleast : list lit -> Z -> Z -> option (cnf * Z) }.

(** cardinality.py 50-54, 57-61, 64-68: an empty result raises. *)
Definition nonempty (r : option (cnf * Z)) : option (cnf * Z) :=
  match r with Some ([], _) => None | _ => r end.
Definition library_equals (E : card_encoder) (ls : list lit) (n top : Z) : option (cnf * Z) :=
  nonempty (enc_equals E ls n top).
Definition library_atmost (E : card_encoder) (ls : list lit) (n top : Z) : option (cnf * Z) :=
  nonempty (enc_atmost E ls n top).
Definition library_atleast (E : card_encoder) (ls : list lit) (n top : Z) : option (cnf * Z) :=
  nonempty (enc_atleast E ls n top).

(** What is assumed of one encoding: over proper literals of the variables
    [1..top] its clauses use the variables [1..top'], and express the condition
    with the variables above [top] as auxiliary ones. *)
Definition honest_for (f : list lit -> Z -> Z -> option (cnf * Z)) (rel : Z -> Z -> Prop) : Prop :=
  forall ls n top cs top', 0 <= top -> Forall (lit_ok top) ls -> f ls n top = Some (cs, top') ->
    top <= top' /\ Forall (Forall (lit_ok top')) cs /\
    encodes top cs (fun a => rel (count_true (values a ls)) n).
Definition honest (E : card_encoder) : Prop :=
  honest_for (enc_equals E) (fun k n => k = n) /\
  honest_for (enc_atmost E) (fun k n => k <= n) /\
  honest_for (enc_atleast E) (fun k n => n <= k).

(** An encoder that meets the contract: a decision tree over the literals. *)
Fixpoint tree (ok : Z -> bool) (ls : list lit) (k : Z) : cnf :=
  match ls with
  | [] => if ok k then [] else [[]]
  | l :: r => implies [l] (tree ok r (k + 1)) ++ implies [- l] (tree ok r k)
  end.
Definition naive_encoder : card_encoder := {|
  enc_equals := fun ls n top => Some (tree (fun k => k =? n) ls 0, top);
  enc_atmost := fun ls n top => Some (tree (fun k => k <=? n) ls 0, top);
  enc_atleast := fun ls n top => Some (tree (fun k => n <=? k) ls 0, top) |}.
