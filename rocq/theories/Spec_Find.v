(** Which layouts the search for optimal balancers may store. *)
From Coq Require Import String ZArith List Bool.
From Verif Require Import Spec_Cnf Spec_Tile Spec_Layout Spec_Main M_Network Spec_Network M_Balancer Spec_Balancer Spec_Edge M_Optimal Spec_Optimal Spec_Interchange.
Import ListNotations.
Open Scope Z_scope.

(** What the search asks for, in terms of the options of belt_balancer.py:
    --fast and --aligned. *)
Definition search_options (u : Z) : options := {|
  o_90 := false; o_180 := false; o_custom := false; o_aligned := true; o_use_ends := false;
  o_edge_splitters := false; o_edge_belts := false; o_glue := false; o_expand := false;
  o_mergeable := false; o_patterns := false; o_symmetry := false; o_fast := true;
  o_length := u; o_partial := None |}.

(** [T] is a layout of the size [s] that is the network [net]: no tunnel is longer
    than the size allows, the splitters fed by the inputs only stand in the second
    column and those that feed the outputs only in the last but one, and it has
    none of the patterns that --fast excludes. *)
Definition wanted (net : network) (s : size) (T : layout) : Prop :=
  let '(u, w, h) := s in
  let A := rectangle w h in
  let nodes := elements (deduplicate_network net) in
  exists ic n oc m P wire, get_input_output_colours net = Some ((ic, n), (oc, m)) /\
    valid_layout A T u /\
    realises_by A T u nodes ic (Z.to_nat n) oc (Z.to_nat m) P wire /\
    edges_taken w T P nodes ic oc /\
    asked (search_options u) A n m T.

(** [rows] shows such a layout. *)
Definition shows_wanted (net : network) (s : size) (rows : list (list tile)) : Prop :=
  exists T, rows = Spec_Main.written T (snd (fst s)) (snd s) /\ wanted net s T.

(** A SAT solver that tells the truth, and whose models have a value for every
    variable up to the largest one of the clauses. *)
Definition full_answers (solver : cnf -> option (list lit)) : Prop :=
  forall cs, Forall (Forall nonzero) cs ->
    match solver cs with
    | None => forall a, sat a cs = false
    | Some m => Forall nonzero m /\ NoDup (map Z.abs m) /\
        (forall c l v, In c cs -> In l c -> 1 <= v <= Z.abs l -> In v (map Z.abs m)) /\
        sat (fun v => existsb (Z.eqb v) m) cs = true
    end.
