(** Model of calculate_optimal.py, 34-53: solve_balancer. *)
From Coq Require Import String ZArith List Bool.
From Verif Require Import Spec_Cnf Spec_Tile M_Json M_Tile M_Util M_Card M_Network M_Template M_Grid M_Oracle M_Balancer M_Optimise M_Solve M_Optimal.
Import ListNotations.
Open Scope Z_scope.

(** calculate_optimal.py 39-46: what is called after create_balancer, in order. *)
Definition search_calls (E : card_encoder) (g : grid) (net : counter) : list gen :=
  [ pure (Some (prevent_intersection g));
    setup_balancer_ends g net true false;
    pure (expand_underground g 1 0 (Some (width (geo g) - 2)) None);
    pure (Some (apply_generic_optimisations g));
    enforce_edge_splitters E g net;
    pure (enforce_maximum_underground_length g) ].
(** calculate_optimal.py 35-46: the grid, the clauses and the number of variables
    when the solver is started. *)
Definition search_clauses (E : card_encoder) (net : network) (s : size) : option (grid * cnf * Z) :=
  let '(u, w, h) := s in
  let net := deduplicate_network net in
  let* (gc, top) := create_balancer E net w h (Some u) in
  let (g, cs) := (gc : grid * cnf) in
  let* (cs', top') := seq_gen (search_calls E g net) top in
  Some (g, (cs ++ cs')%list, top').
(** calculate_optimal.py 34-53: the outer [None] is an exception.  Of the cells of
    the solution only the entry 'tile' is kept. *)
Definition solve_balancer (E : card_encoder) (solver : cnf -> option (list lit)) (net : network) (s : size) : option (option (list (list tile))) :=
  let* (gc, top) := search_clauses E net s in
  let (g, cs) := (gc : grid * cnf) in
  match solve solver cs with
  | None => Some None
  | Some m => let* rows := parse_solution g m in Some (Some rows)
  end.

(** calculate_optimal.py 306-325: a computation whose answers are those of
    solve_balancer.  The tasks are waiting for one answer each; the answers arrive
    in any order.  The list has the questions in the order of their answers. *)
Inductive searches (E : card_encoder) (solver : cnf -> option (list lit)) (o : objective) (u : Z) :
    computation (list (list tile)) -> list (nat * size) -> computation (list (list tile)) -> Prop :=
| searches_done c : searches E solver o u c [] c
| searches_step c i t s sol c' asked c'' :
    nth_error (cp_tasks c) i = Some t -> tk_pending t = Some s ->
    solve_balancer E solver (st_network (tk_store t)) s = Some sol ->
    deliver o u c i sol = Some c' -> searches E solver o u c' asked c'' ->
    searches E solver o u c ((i, s) :: asked) c''.
