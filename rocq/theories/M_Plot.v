(** Model of network.py, 73-121: plot.  The points of the graph are called 'start',
    'end', the number of a splitter, or 'c' and a colour; here they are elements of
    an inductive type, as no two of these names are alike.  Styles of points and
    what graphviz does with the graph are left out. *)
From Coq Require Import ZArith List Bool.
From Verif Require Import M_Json M_Network M_Balancer Spec_Plot.
Import ListNotations.
Open Scope Z_scope.

(** network.py 83-84. *)
Definition input_side : bool := false.
Definition output_side : bool := true.
(** network.py 86-95: where a colour occurs, with repetitions, and in which order
    the colours are met. *)
Definition mentions (ind : nat * splitter) : list (colour * (bool * nat)) :=
  let (i, nd) := ind in
  (map (fun c => (c, (output_side, i))) (side_list (fst nd)) ++ map (fun c => (c, (input_side, i))) (side_list (snd nd)))%list.
Definition all_mentions (net : network) : list (Z * (bool * nat)) :=
  flat_map (fun m => match fst m with Some c => [(c, snd m)] | None => [] end) (flat_map mentions (indexed net)).
Definition place_eq_dec : forall a b : bool * nat, {a = b} + {a <> b}.
Proof. decide equality; [apply PeanoNat.Nat.eq_dec|apply bool_dec]. Defined.
(** The set of the occurrences of a colour. *)
Definition places (net : network) (c : Z) : list (bool * nat) :=
  nodup place_eq_dec (map snd (filter (fun m => fst m =? c) (all_mentions net))).
(** The keys of the dictionary; the order of the keys makes no difference here. *)
Definition plot_colours (net : network) : list Z := nodup Z.eq_dec (map fst (all_mentions net)).

(** network.py 100-116: the arrows of one colour.  If one splitter makes it and one
    takes it then sorted puts the former first, since False is less than True. *)
Definition colour_arrows (order : list (bool * nat) -> list (bool * nat)) (c : Z) (ps : list (bool * nat)) : list arrow :=
  let takers := filter (fun p => Bool.eqb (fst p) output_side) ps in
  let makers := filter (fun p => Bool.eqb (fst p) input_side) ps in
  match makers, takers with
  | [(_, a)], [(_, b)] => [ {| ar_from := Node a; ar_to := Node b; ar_label := Some c; ar_head := true |} ]
  | _, _ =>
      map (fun p : bool * nat => let (side, i) := p in
        if Bool.eqb side input_side then
          {| ar_from := Node i; ar_to := Meet c; ar_label := None; ar_head := Nat.eqb (length takers) 0 |}
        else {| ar_from := Meet c; ar_to := Node i; ar_label := None; ar_head := true |}) (order ps)
  end.
(** network.py 73-116: the arrows of the graph; [None]: get_input_output_colours
    raises. *)
Definition plot (order : list (bool * nat) -> list (bool * nat)) (net : network) : option (list arrow) :=
  let* (i, o) := get_input_output_colours net in
  let ends := [ {| ar_from := Start; ar_to := Meet (fst i); ar_label := None; ar_head := true |};
                {| ar_from := Meet (fst o); ar_to := End; ar_label := None; ar_head := true |} ] in
  Some (ends ++ flat_map (fun c => colour_arrows order c (places net c)) (plot_colours net))%list.
