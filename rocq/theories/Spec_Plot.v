(** Drawings of networks. *)
From Coq Require Import ZArith List Bool.
From Verif Require Import M_Network.
Import ListNotations.
Open Scope Z_scope.

(** The points of a drawing: where items come from and go to, a splitter by its
    place in the network, and a colour whose belts meet. *)
Inductive point := Start | End | Node (i : nat) | Meet (c : Z).
(** An arrow may have a label, and may lack its head. *)
Record arrow := { ar_from : point; ar_to : point; ar_label : option Z; ar_head : bool }.

(** A belt of colour [c] leaves, or arrives at, the splitter at place [i]. *)
Definition makes (net : network) (i : nat) (c : Z) : Prop := exists nd, nth_error net i = Some nd /\ (fst (snd nd) = Some c \/ snd (snd nd) = Some c).
Definition takes_in (net : network) (i : nat) (c : Z) : Prop := exists nd, nth_error net i = Some nd /\ (fst (fst nd) = Some c \/ snd (fst nd) = Some c).

(** What a drawing shows: that belts of colour [c] lead from one splitter to another,
    from the inputs to a splitter, and from a splitter to the outputs. *)
Definition arrow_in (G : list arrow) (a b : point) : Prop := exists e, In e G /\ ar_from e = a /\ ar_to e = b.
Definition shows_belt (G : list arrow) (i j : nat) (c : Z) : Prop :=
  (exists e, In e G /\ ar_from e = Node i /\ ar_to e = Node j /\ ar_label e = Some c /\ ar_head e = true) \/
  (arrow_in G (Node i) (Meet c) /\ exists e, In e G /\ ar_from e = Meet c /\ ar_to e = Node j /\ ar_head e = true).
Definition shows_input (G : list arrow) (j : nat) (c : Z) : Prop := arrow_in G Start (Meet c) /\ arrow_in G (Meet c) (Node j).
Definition shows_output (G : list arrow) (i : nat) (c : Z) : Prop := arrow_in G (Node i) (Meet c) /\ arrow_in G (Meet c) End.
(** Only one splitter makes belts of colour [c], and only one takes them. *)
Definition private (net : network) (c : Z) : Prop := exists i j, (forall k, makes net k c <-> k = i) /\ (forall k, takes_in net k c <-> k = j).
