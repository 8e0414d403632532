(** Model of the solver interface: template.py 37-96 (external solver output),
    394-435 (solve, itersolve) and ipasir.py (the library wrapper). *)
From Coq Require Import String Ascii ZArith List Bool DecimalString DecimalZ.
From Verif Require Import Spec_Cnf M_Json M_Util M_Template.
Import ListNotations.
Local Open Scope string_scope.
Open Scope Z_scope.

(** * template.py 37-77: run_command_solver, interpret_solver_answer *)

(** str.startswith. *)
Fixpoint starts_with (p s : string) : bool :=
  match p, s with
  | EmptyString, _ => true
  | String c p', String d s' => Ascii.eqb c d && starts_with p' s'
  | _, EmptyString => false
  end.

(** Characters removed by str.split() (the ASCII ones). *)
Definition is_space (c : ascii) : bool :=
  let n := nat_of_ascii c in ((9 <=? n) && (n <=? 13) || (28 <=? n) && (n <=? 32))%nat.

(** str.split() without arguments; [word] is the word being read. *)
Fixpoint split_words (word : string) (s : string) : list string :=
  match s with
  | EmptyString => match word with EmptyString => [] | _ => [word] end
  | String c s' =>
      if is_space c then match word with EmptyString => split_words "" s' | _ => word :: split_words "" s' end
      else split_words (word ++ String c EmptyString) s'
  end.
Definition split (s : string) : list string := split_words "" s.

(** int(v) on decimal numerals with an optional minus sign (other spellings
    that int accepts, such as "+1" or "1_0", are treated as errors). *)
Definition parse_int (s : string) : option Z :=
  match NilZero.int_of_string s with Some d => Some (Z.of_int d) | None => None end.

(** What the reader returns: a model, "unsatisfiable", or an exception. *)
Inductive answer := Model (m : list lit) | Unsat | Failed.

(** The output of the process is the list of its lines (without line ends);
    the end of the list is the end of the stream, where readline returns ''.
    Lines 57-75. *)
Fixpoint read_values (lines : list string) (model : list lit) : answer :=
  match lines with
  | [] => Model model
  | line :: rest =>
      if starts_with "c" line then read_values rest model
      else match split line with
           | [] => Failed (* variables[0]: IndexError *)
           | w :: ws =>
               if negb (String.eqb w "v") then Failed
               else match omap parse_int ws with
                    | None => Failed
                    | Some vs =>
                        let model' := (model ++ vs)%list in
                        match rev model' with
                        | [] => Failed (* model[-1]: IndexError *)
                        | l :: r => if l =? 0 then Model (rev r) else read_values rest model'
                        end
                    end
           end
  end.

(** Lines 39-55: the status line.  At the end of the stream readline keeps
    returning '' until the process has been seen to end, then raises. *)
Fixpoint read_answer (lines : list string) : answer :=
  match lines with
  | [] => Failed
  | line :: rest =>
      if starts_with "s" line then
        if starts_with "s UNSATISFIABLE" line then Unsat
        else if negb (starts_with "s SATISFIABLE" line) then Failed
        else read_values rest []
      else read_answer rest
  end.

(** * template.py 417-435: itersolve with an in-process solver *)
Section Itersolve.
  (** The solver, as a function of the clauses added so far: [None] for
      unsatisfiable, otherwise the result of get_model. *)
  Variable solver : cnf -> option (list lit).
  Variable important : list Z.

  (** Line 435. *)
  Definition blocking (m : list lit) : clause :=
    map Z.opp (filter (fun l => existsb (Z.eqb (Z.abs l)) important) m).

  (** Lines 430-435; [fuel] bounds the rounds, [None] is running out. *)
  Fixpoint itersolve (fuel : nat) (cs : cnf) : option (list (list lit)) :=
    match fuel with
    | O => None
    | S f =>
        match solver cs with
        | None => Some []
        | Some m => let* ms := itersolve f (cs ++ [blocking m]) in Some (m :: ms)
        end
    end.
End Itersolve.

(** Lines 418-422: with an external command at most one solution is given. *)
Definition itersolve_command (run : cnf -> option (list lit)) (cs : cnf) : list (list lit) :=
  match run cs with Some m => [m] | None => [] end.

(** Lines 397-415: solve. *)
Definition solve (solver : cnf -> option (list lit)) (cs : cnf) : option (list lit) := solver cs.

(** * ipasir.py: the wrapper as a state machine *)
(** Calls made to the library. The pointer argument is [None] for NULL. *)
Inductive libcall :=
| LInit | LRelease (p : option Z) | LAdd (p : option Z) (l : Z) | LAssume (p : option Z) (l : Z)
| LSolve (p : option Z) | LVal (p : option Z) (v : Z) | LFailed (p : option Z) (l : Z)
| LSetLearn (p : option Z) (max_clause_size : Z) | LSetTerminate (p : option Z).

(** ipasir.py 56-60: the attributes of a solver object.  [vars] is a set;
    iteration order is unspecified, modelled as insertion order. *)
Record ipasir := { solver_p : option Z; vars : list Z }.

(** Methods. *)
Inductive method :=
| MAddClause (c : clause) | MAddClauses (cs : cnf) | MAssume (l : lit) | MSolve | MGetModel
| MFailed (l : lit) | MEnter | MExit | MDel | MSetLearn (max_clause_size : Z) | MSetTerminate.

(** Results of a method: an exception, nothing, a boolean or None (solve), a
    model. *)
Inductive outcome := Raised | Done | Status (b : option bool) | Lits (m : list lit).

(** set.add *)
Definition set_add (v : Z) (s : list Z) : list Z := if existsb (Z.eqb v) s then s else (s ++ [v])%list.

Section Ipasir.
  (** Answers of the library: result of the n-th call. *)
  Variable reply : list libcall -> libcall -> Z.

  (** 66-72, 106-115: the literals of a clause, then 0. *)
  Definition add_calls (p : option Z) (c : clause) : list libcall := map (LAdd p) c ++ [LAdd p 0].
  Definition add_vars (s : list Z) (c : clause) : list Z := fold_left (fun s l => set_add (Z.abs l) s) c s.

  (** 134-143: one value per variable; [log] is the history before. *)
  Fixpoint get_values (p : option Z) (log : list libcall) (vs : list Z) : list lit * list libcall :=
    match vs with
    | [] => ([], log)
    | v :: r =>
        let value := reply log (LVal p v) in
        let '(m, log') := get_values p (log ++ [LVal p v]) r in
        ((if value =? 0 then v else value) :: m, log')
    end.

  (** One method call on state [s] with library history [log]: the outcome, the
      new state and the new history. *)
  Definition step (s : ipasir) (log : list libcall) (m : method) : outcome * ipasir * list libcall :=
    let p := solver_p s in
    let closed := match p with None => true | Some _ => false end in
    match m with
    | MAddClause c =>
        if closed then (Raised, s, log)
        else (Done, {| solver_p := p; vars := add_vars (vars s) c |}, log ++ add_calls p c)
    | MAddClauses cs =>
        if closed then (Raised, s, log)
        else (Done, {| solver_p := p; vars := fold_left add_vars cs (vars s) |}, log ++ flat_map (add_calls p) cs)
    | MAssume l => if closed then (Raised, s, log) else (Done, s, log ++ [LAssume p l])
    | MSolve =>
        if closed then (Raised, s, log)
        else let res := reply log (LSolve p) in
             let log' := log ++ [LSolve p] in
             (if res =? 0 then Status None
              else if res =? 10 then Status (Some true)
              else if res =? 20 then Status (Some false) else Raised, s, log')
    | MGetModel =>
        if closed then (Raised, s, log)
        else let '(ms, log') := get_values p log (vars s) in (Lits ms, s, log')
    | MFailed l =>
        if closed then (Raised, s, log)
        else (Status (Some (negb (reply log (LFailed p l) =? 0))), s, log ++ [LFailed p l])
    | MEnter => if closed then (Raised, s, log) else (Done, s, log)
    | MExit =>
        if closed then (Raised, s, log)
        else (Done, {| solver_p := None; vars := vars s |}, log ++ [LRelease p])
    | MDel => (* 160-161; the object is gone afterwards *)
        if closed then (Done, s, log) else (Done, {| solver_p := None; vars := vars s |}, log ++ [LRelease p])
    | MSetLearn k => (Done, s, log ++ [LSetLearn p k]) (* 74-92: no check_closed *)
    | MSetTerminate => (Done, s, log ++ [LSetTerminate p]) (* 94-104: no check_closed *)
    end%list.

  (** A history of calls on a new object (ipasir.py 55-60). *)
  Fixpoint run (s : ipasir) (log : list libcall) (ms : list method) : list outcome * ipasir * list libcall :=
    match ms with
    | [] => ([], s, log)
    | m :: r =>
        let '(o, s1, log1) := step s log m in
        let '(os, s2, log2) := run s1 log1 r in (o :: os, s2, log2)
    end.
  Definition created (pointer : Z) : ipasir := {| solver_p := Some pointer; vars := [] |}.
End Ipasir.
