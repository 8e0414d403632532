(** Python dictionaries as association lists in insertion order, and sets as
    duplicate-free lists.  Shared by the models of network.py and
    calculate_optimal.py. *)
From Coq Require Import ZArith List Bool.
Import ListNotations.

Section Dict.
  Context {K V : Type} (eqb : K -> K -> bool).

  (** d.get(k) *)
  Fixpoint dget (k : K) (d : list (K * V)) : option V :=
    match d with
    | [] => None
    | (k', v) :: r => if eqb k k' then Some v else dget k r
    end.

  (** d[k] = v: replaced in place, or appended. *)
  Fixpoint dset (k : K) (v : V) (d : list (K * V)) : list (K * V) :=
    match d with
    | [] => [(k, v)]
    | (k', v') :: r => if eqb k k' then (k', v) :: r else (k', v') :: dset k v r
    end.

  (** del d[k] (for a key that is present). *)
  Fixpoint ddel (k : K) (d : list (K * V)) : list (K * V) :=
    match d with
    | [] => []
    | (k', v') :: r => if eqb k k' then r else (k', v') :: ddel k r
    end.
End Dict.

(** Stable sorting by an integer key: sorted(l, key=...), l.sort(key=...). *)
Section Sort.
  Context {A : Type} (le : A -> A -> bool).
  Fixpoint insert (x : A) (l : list A) : list A :=
    match l with
    | [] => [x]
    | y :: r => if le x y then x :: l else y :: insert x r
    end.
  Fixpoint sort (l : list A) : list A :=
    match l with [] => [] | x :: r => insert x (sort r) end.
End Sort.
Definition sort_by {A} (key : A -> Z) : list A -> list A := sort (fun x y => (key x <=? key y)%Z).
