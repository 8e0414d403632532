(** What --edge-splitters and --edge-belts ask of a balancer, in terms of the layout. *)
From Coq Require Import ZArith List Bool.
From Verif Require Import Spec_Tile Spec_Layout M_Network Spec_Network Spec_Balancer.
Import ListNotations.
Open Scope Z_scope.

(** Both belts on this side of a splitter have the colour [c]. *)
Definition all_of (c : Z) (s : side) : bool :=
  match s with (Some x, Some y) => (x =? c) && (y =? c) | _ => false end.
(** How many belts of the colour [c] there are on these sides. *)
Definition belts_of (c : Z) (sides : list side) : Z :=
  fold_right Z.add 0 (map (fun s : side => (match fst s with Some x => if x =? c then 1 else 0 | None => 0 end) +
                                           (match snd s with Some x => if x =? c then 1 else 0 | None => 0 end)) sides).

(** The splitters both of whose belts on the side [sd] have colour [c] stand in
    column [x].  When no belt of colour [c] goes back into the network
    ([back = 0]) this holds for all of them, and they face right.  Otherwise all but
    [back] of them stand there, facing anywhere. *)
Definition at_edge (T : layout) (P : placement) (nodes : network) (sd : splitter -> side) (c x back : Z) : Prop :=
  if back =? 0 then
    forall j nd s, nth_error nodes j = Some nd -> nth_error (pl_splitters P) j = Some s -> all_of c (sd nd) = true ->
      fst (fst s) = x /\ T (fst s) = Splitter RIGHT true
  else
    Z.of_nat (length (filter (fun nd => all_of c (sd nd)) nodes)) - back <=
    Z.of_nat (length (filter (fun sn : (pos * pos) * splitter => all_of c (sd (snd sn)) && (fst (fst (fst sn)) =? x)) (combine (pl_splitters P) nodes))).

(** The splitters fed by the inputs only stand in the second column, those that
    feed the outputs only in the last but one. *)
Definition edges_taken (w : Z) (T : layout) (P : placement) (nodes : network) (ic oc : Z) : Prop :=
  at_edge T P nodes fst ic 1 (belts_of ic (map snd nodes)) /\
  at_edge T P nodes snd oc (w - 2) (belts_of oc (map fst nodes)).
