(** What the search for optimal balancers should achieve, independently of the
    functions of calculate_optimal.py. *)
From Coq Require Import ZArith List Bool.
From Verif Require Import M_Network M_Optimal.
Import ListNotations.
Open Scope Z_scope.

(** A size is an underground length, a width and a height.  [within s t]: a
    layout of size [s] can be placed where size [t] is available. *)
Definition within (s t : size) : Prop :=
  let '(u, w, h) := s in let '(u', w', h') := t in u <= u' /\ w <= w' /\ h <= h'.

Section Facts.
  Context {A : Type}.
  (** What a database records. *)
  Definition recorded (st : store A) (s : size) (b : bool) : Prop := In (s, b) (st_exist st).
  Definition stored (st : store A) (s : size) (a : A) : Prop := In (s, a) (st_solutions st).

  (** Databases obtained by recording answers about sizes that were unknown, and
      cleaning up, in any order. *)
  Inductive history : store A -> Prop :=
  | history_new name net : history (new_store name net)
  | history_add st s sol : history st -> does_balancer_exist st s = None -> history (add_solution st s sol)
  | history_clean st : history st -> history (clean st).

  (** Databases obtained by searching: every recorded answer belongs to a size
      some objective asked about, for some underground length.  [answer] is what
      the solver may reply. *)
  Inductive built (answer : network -> size -> option A -> Prop) : store A -> Prop :=
  | built_new name net : built answer (new_store name net)
  | built_more st o u s sol : built answer st -> next_size o st u = Some (Some s) ->
      answer (st_network st) s sol -> built answer (clean (add_solution st s sol)).
  (** The same with the underground lengths among [lengths]. *)
  Inductive built_for (lengths : Z -> Prop) (answer : network -> size -> option A -> Prop) : store A -> Prop :=
  | built_for_new name net : built_for lengths answer (new_store name net)
  | built_for_more st o u s sol : built_for lengths answer st -> lengths u -> next_size o st u = Some (Some s) ->
      answer (st_network st) s sol -> built_for lengths answer (clean (add_solution st s sol)).
  Definition any_answer (net : network) (s : size) (sol : option A) : Prop := True.

  (** A balancer for [net] has its inputs and outputs in a column, so it is at
      least [mh] high; each splitter takes two tiles between the two end columns.
      The searches look at these sizes. *)
  Definition searched (o : objective) (net : network) (mh w h : Z) : Prop :=
    3 <= w /\ Z.of_nat (length net) * 2 <= (w - 2) * h /\
    match o with Length => h = mh | Area => mh <= h <= 2 * mh end.

  (** How good a size is: a short balancer, or a balancer of small area (not
      counting the end columns). *)
  Definition cost (o : objective) (w h : Z) : Z :=
    match o with Length => w | Area => (w - 2) * h end.

  Section Solver.
    (** [solves net s a]: [a] is a layout of size [s] that realises [net]. *)
    Variable solves : network -> size -> A -> Prop.
    Definition feasible (net : network) (s : size) : Prop := exists a, solves net s a.
    (** A solver that always tells the truth. *)
    Definition truthful (net : network) (s : size) (sol : option A) : Prop :=
      match sol with Some a => solves net s a | None => ~ feasible net s end.
    (** A layout that fits stays possible when there is more room.  This is not
        assumed anywhere, for it is not so (C110). *)
    Definition monotone : Prop := forall net s t, within s t -> feasible net s -> feasible net t.
    (** Of the underground lengths that are searched for, a longer one makes no
        size impossible.  There is nothing to assume if there is one length only. *)
    Definition longer_helps (lengths : Z -> Prop) : Prop := forall net u u' w h, lengths u -> lengths u' -> u <= u' ->
      feasible net (u, w, h) -> feasible net (u', w, h).

    (** [a] is an optimal layout for underground length [u]. *)
    Definition optimal (lengths : Z -> Prop) (o : objective) (net : network) (mh u : Z) (a : A) : Prop :=
      exists u' w h, lengths u' /\ u' <= u /\ searched o net mh w h /\ solves net (u', w, h) a /\
        forall u'' w' h', lengths u'' -> u'' <= u -> searched o net mh w' h' -> feasible net (u'', w', h') ->
          cost o w h <= cost o w' h'.

    (** Runs of a computation: the answers arrive in any order. *)
    Inductive run (o : objective) (u : Z) : computation A -> list (nat * size) -> computation A -> Prop :=
    | run_done c : run o u c [] c
    | run_step c i t s sol c' asked c'' :
        nth_error (cp_tasks c) i = Some t -> tk_pending t = Some s ->
        truthful (st_network (tk_store t)) s sol ->
        deliver o u c i sol = Some c' -> run o u c' asked c'' ->
        run o u c ((i, s) :: asked) c''.
  End Solver.
End Facts.
