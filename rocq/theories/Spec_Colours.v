(** What the cost of the colours of a network is, independently of network.py:
    the colours are written in binary, and belts side by side at a splitter
    should differ in few digits. *)
From Coq Require Import ZArith List Bool.
From Verif Require Import Spec_Cnf M_Network Spec_Network.
Import ListNotations.
Open Scope Z_scope.

(** In how many binary digits two natural numbers differ. *)
Definition digits_apart (a b : Z) : Z :=
  len (filter (fun i => xorb (Z.testbit a (Z.of_nat i)) (Z.testbit b (Z.of_nat i))) (seq 0 (Z.to_nat (Z.log2 (Z.max a b) + 1)))).

(** The colour is neither one that only enters nor one that only leaves. *)
Definition innerb (net : network) (c : Z) : bool := (0 <? consumed net c) && (0 <? produced net c).
(** The pairs of belts that count: two belts on one side of a splitter, of which
    one is inside the network. *)
Definition counted_pairs (net : network) : list (Z * Z) :=
  flat_map (fun s : side => match s with
    | (Some a, Some b) => if innerb net a || innerb net b then [(a, b)] else []
    | _ => []
    end) (flat_map (fun nd : splitter => [fst nd; snd nd]) net).
Definition total_cost (net : network) : Z :=
  fold_right Z.add 0 (map (fun p => digits_apart (fst p) (snd p)) (counted_pairs net)).

(** The network has [n] colours. *)
Definition has_colours (net : network) (n : Z) : Prop :=
  exists l, NoDup l /\ (forall c, In c l <-> has_colour net c) /\ len l = n.
(** Different colours of the network get different numbers ... *)
Definition keeps_apart (net : network) (f : Z -> Z) : Prop :=
  forall c d, has_colour net c -> has_colour net d -> f c = f d -> c = d.
(** ... from 0 to [n] - 1. *)
Definition numbers_to (net : network) (n : Z) (f : Z -> Z) : Prop :=
  keeps_apart net f /\ forall c, has_colour net c -> 0 <= f c < n.

(** A truthful solver: a model gives every variable of the clauses one value and
    satisfies them; without a model there is no satisfying assignment. *)
Definition truthful (solver : list (list Z) -> option (list Z)) : Prop :=
  forall cs, Forall (Forall nonzero) cs ->
    match solver cs with
    | None => forall a, sat a cs = false
    | Some m => NoDup (map Z.abs m) /\ (forall c l, In c cs -> In l c -> In l m \/ In (- l) m) /\
        sat (fun v => existsb (Z.eqb v) m) cs = true
    end.
