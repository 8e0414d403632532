(** JSON values as Python's json module builds them: objects are dictionaries,
    modelled as association lists in insertion order. Simplification: numbers
    are integers (no floats are read or written by the modelled code). *)
From Coq Require Import ZArith List Bool String.
Import ListNotations.
Open Scope Z_scope.

Inductive json : Type :=
| JNull
| JBool (b : bool)
| JNum (n : Z)
| JStr (s : string)
| JArr (l : list json)
| JObj (l : list (string * json)).

(** Python [d[k]] on a dictionary (KeyError / TypeError -> None). *)
Fixpoint assoc {A} (k : string) (l : list (string * A)) : option A :=
  match l with
  | [] => None
  | (k', v) :: t => if String.eqb k k' then Some v else assoc k t
  end.

Definition jget (k : string) (j : json) : option json :=
  match j with JObj l => assoc k l | _ => None end.

(** Python [d[k] = v]: replace in place or append. *)
Fixpoint aset {A} (k : string) (v : A) (l : list (string * A)) : list (string * A) :=
  match l with
  | [] => [(k, v)]
  | (k', v') :: t => if String.eqb k k' then (k, v) :: t else (k', v') :: aset k v t
  end.

Definition jset (k : string) (v : json) (j : json) : option json :=
  match j with JObj l => Some (JObj (aset k v l)) | _ => None end.

Definition jnum (j : json) : option Z := match j with JNum n => Some n | _ => None end.
Definition jbool (j : json) : option bool := match j with JBool b => Some b | _ => None end.
Definition jstr (j : json) : option string := match j with JStr s => Some s | _ => None end.

(** The option monad used for Python exceptions. *)
Definition obind {A B} (o : option A) (f : A -> option B) : option B :=
  match o with Some a => f a | None => None end.
Notation "'let*' x := o 'in' k" := (obind o (fun x => k)) (at level 200, x pattern, right associativity).

(** Sequential evaluation of a list of computations (a list comprehension whose
    element expression may raise). *)
Fixpoint omap {A B} (f : A -> option B) (l : list A) : option (list B) :=
  match l with
  | [] => Some []
  | x :: t => let* y := f x in let* ys := omap f t in Some (y :: ys)
  end.
