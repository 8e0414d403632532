(** Specification vocabulary for SAT encodings.  Nothing here refers to the
    model of the Python code. *)
From Coq Require Import ZArith List Bool.
Import ListNotations.
Open Scope Z_scope.

(** DIMACS literals, clauses and formulas. *)
Notation lit := Z (only parsing).
Notation clause := (list Z) (only parsing).
Notation cnf := (list (list Z)) (only parsing).

(** An assignment gives every variable (a positive integer) a truth value. *)
Definition assignment := Z -> bool.

(** Value of a literal: variable [l] when [l > 0], negation of variable [-l]
    otherwise. *)
Definition evl (a : assignment) (l : lit) : bool :=
  if 0 <? l then a l else negb (a (- l)).

Definition satc (a : assignment) (c : clause) : bool := existsb (evl a) c.
Definition sat (a : assignment) (f : cnf) : bool := forallb (satc a) f.

(** A proper literal over the variables [1..n]. *)
Definition lit_ok (n : Z) (l : lit) : Prop := l <> 0 /\ Z.abs l <= n.
Definition nonzero (l : lit) : Prop := l <> 0.

(** Two assignments agree on the variables [1..n]. *)
Definition agree (n : Z) (a b : assignment) : Prop :=
  forall v, 1 <= v <= n -> a v = b v.

(** [encodes n f P]: with the variables above [n] regarded as auxiliary, the
    formula [f] expresses the predicate [P] on assignments. *)
Definition encodes (n : Z) (f : cnf) (P : assignment -> Prop) : Prop :=
  (forall a, sat a f = true -> P a) /\
  (forall a, P a -> exists b, agree n a b /\ sat b f = true).

(** Little-endian value of a list of bits. *)
Fixpoint num (bs : list bool) : Z :=
  match bs with
  | [] => 0
  | b :: t => Z.b2z b + 2 * num t
  end.

Definition values (a : assignment) (ls : list lit) : list bool := map (evl a) ls.
Definition value (a : assignment) (ls : list lit) : Z := num (values a ls).

(** Number of true bits. *)
Fixpoint count_true (bs : list bool) : Z :=
  match bs with
  | [] => 0
  | b :: t => Z.b2z b + count_true t
  end.

(** Lexicographic order on bit lists, [false < true]. *)
Fixpoint lex_le (xs ys : list bool) : bool :=
  match xs, ys with
  | x :: xs', y :: ys' => (negb x && y) || (eqb x y && lex_le xs' ys')
  | _, _ => true
  end.

Definition len {A} (l : list A) : Z := Z.of_nat (length l).
