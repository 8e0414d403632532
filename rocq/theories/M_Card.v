(** Model of factorio_sat/cardinality.py (the hand written encodings; the
    [library_*] functions delegate to pysat and are modelled in M_Oracle.v). *)
From Coq Require Import ZArith List Bool.
From Verif Require Import Spec_Cnf M_Util.
Import ListNotations.
Open Scope Z_scope.

(** cardinality.py:13-15; [prefix] is [literals[:i]]. *)
Fixpoint quadratic_loop (prefix ls : list lit) : cnf :=
  match ls with
  | [] => []
  | a :: t => map (fun b => [- a; - b]) prefix ++ quadratic_loop (prefix ++ [a]) t
  end.

(** cardinality.py:11-16 *)
Definition quadratic_amo (ls : list lit) : cnf := quadratic_loop [] ls.

(** cardinality.py:38-39 *)
Definition quadratic_one (ls : list lit) : cnf := quadratic_amo ls ++ [ls].

(** cardinality.py:22-23; [i] is the enumeration index.  [set_number] may raise. *)
Fixpoint logarithmic_loop (i : Z) (ls location : list lit) : option cnf :=
  match ls with
  | [] => Some []
  | l :: t =>
      match set_number i location with
      | None => None
      | Some cs =>
          match logarithmic_loop (i + 1) t location with
          | None => None
          | Some rest => Some (implies [l] cs ++ rest)
          end
      end
  end.

(** cardinality.py:19-24.  [bin_length(0)] raises. *)
Definition logarithmic_amo (ls : list lit) (top : Z) : option (cnf * Z) :=
  match bin_length (len ls) with
  | None => None
  | Some w =>
      match logarithmic_loop 0 ls (fresh top (Z.to_nat w)) with
      | None => None
      | Some cs => Some (ls :: cs, top + w)
      end
  end.

(** cardinality.py:42-43 *)
Definition logarithmic_one (ls : list lit) (top : Z) : option (cnf * Z) :=
  match logarithmic_amo ls top with
  | None => None
  | Some (cs, top') => Some (cs ++ [ls], top')
  end.

(** cardinality.py:27-35.  [fuel] bounds the recursion; running out is [None]
    and excluded by the theorems. *)
Fixpoint heule_fuel (fuel : nat) (ls : list lit) (cutoff : nat) (top : Z) : option (cnf * Z) :=
  match fuel with
  | O => None
  | S fuel' =>
      if negb (Nat.leb 3 cutoff) then None else
      if Nat.leb (length ls) cutoff then Some (quadratic_amo ls, top) else
      let auxilary := top + 1 in
      let middle := Nat.div (length ls) 2 in
      match heule_fuel fuel' (firstn middle ls ++ [auxilary]) cutoff (top + 1) with
      | None => None
      | Some (c1, top1) =>
          match heule_fuel fuel' (skipn middle ls ++ [- auxilary]) cutoff top1 with
          | None => None
          | Some (c2, top2) => Some (c1 ++ c2, top2)
          end
      end
  end.
Definition heule_amo (ls : list lit) (cutoff : nat) (top : Z) : option (cnf * Z) :=
  heule_fuel (S (length ls)) ls cutoff top.

(** cardinality.py:46-47 *)
Definition heule_one (ls : list lit) (cutoff : nat) (top : Z) : option (cnf * Z) :=
  match heule_amo ls cutoff top with
  | None => None
  | Some (cs, top') => Some (cs ++ [ls], top')
  end.
