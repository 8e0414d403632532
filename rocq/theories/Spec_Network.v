(** What a balancer network means, independently of network.py's functions.

    A network is a list of splitters with coloured input and output belts.
    Equal colours say which belts may be joined. *)
From Coq Require Import ZArith QArith List Bool.
From Verif Require Import M_Network.
Import ListNotations.
Local Open Scope Q_scope.

Definition occurs (c : Z) (l : list colour) : Z :=
  Z.of_nat (length (filter (fun d => match d with Some x => (x =? c)%Z | None => false end) l)).
(** How many splitter inputs / outputs carry the colour [c]. *)
Definition consumed (net : network) (c : Z) : Z :=
  occurs c (flat_map (fun n : splitter => [fst (fst n); snd (fst n)]) net).
Definition produced (net : network) (c : Z) : Z :=
  occurs c (flat_map (fun n : splitter => [fst (snd n); snd (snd n)]) net).

(** The network has [n] free inputs, all coloured [ic], and [m] free outputs,
    all coloured [oc]; every other colour is produced as often as consumed. *)
Definition has_ends (net : network) (ic n oc m : Z) : Prop :=
  (0 < n /\ 0 < m)%Z /\
  (consumed net ic - produced net ic = n)%Z /\ (produced net oc - consumed net oc = m)%Z /\
  (forall c, c <> ic -> c <> oc -> consumed net c = produced net c).

(** Where belts start and end. [false] is the first belt of a splitter's side,
    [true] the second. *)
Inductive source := FromInput (j : nat) | FromSplitter (i : nat) (b : bool).
Inductive sink := ToOutput (j : nat) | ToSplitter (i : nat) (b : bool).

Definition pick (s : side) (b : bool) : colour := if b then snd s else fst s.

Section Wiring.
  Variables (net : network) (ic : Z) (n : nat) (oc : Z) (m : nat).

  (** [source_colour s] is the colour of an existing start of a belt. *)
  Definition source_colour (s : source) : colour :=
    match s with
    | FromInput j => if (j <? n)%nat then Some ic else None
    | FromSplitter i b => match nth_error net i with Some nd => pick (snd nd) b | None => None end
    end.
  Definition sink_colour (k : sink) : colour :=
    match k with
    | ToOutput j => if (j <? m)%nat then Some oc else None
    | ToSplitter i b => match nth_error net i with Some nd => pick (fst nd) b | None => None end
    end.

  (** A wiring joins every end to a start of the same colour, and every start to
      exactly one end. *)
  Definition wiring (w : sink -> source) : Prop :=
    (forall k c, sink_colour k = Some c -> source_colour (w k) = Some c) /\
    (forall k k', sink_colour k <> None -> sink_colour k' <> None -> w k = w k' -> k = k') /\
    (forall s, source_colour s <> None -> exists k, sink_colour k <> None /\ w k = s).

  (** Steady flow: what enters a splitter is shared equally by its outputs. *)
  Definition arriving (w : sink -> source) (flow : source -> Q) (i : nat) (b : bool) : Q :=
    match sink_colour (ToSplitter i b) with Some _ => flow (w (ToSplitter i b)) | None => 0 end.
  Definition outputs_of (i : nat) : Z :=
    ((match source_colour (FromSplitter i false) with Some _ => 1 | None => 0 end) +
     (match source_colour (FromSplitter i true) with Some _ => 1 | None => 0 end))%Z.
  Definition steady (w : sink -> source) (flow : source -> Q) : Prop :=
    forall i b, source_colour (FromSplitter i b) <> None ->
      inject_Z (outputs_of i) * flow (FromSplitter i b) == arriving w flow i false + arriving w flow i true.

  Definition total_input (flow : source -> Q) : Q :=
    fold_right Qplus 0 (map (fun j => flow (FromInput j)) (seq 0 n)).

  (** The network balances: in every wiring and every steady flow, each output
      carries the same share of the input. *)
  Definition balances : Prop :=
    forall w flow, wiring w -> steady w flow ->
    forall j, (j < m)%nat -> inject_Z (Z.of_nat m) * flow (w (ToOutput j)) == total_input flow.
End Wiring.

(** Renaming the colours of a network. *)
Definition recolour (f : Z -> Z) (net : network) : network :=
  map (fun n : splitter => ((option_map f (fst (fst n)), option_map f (snd (fst n))),
                            (option_map f (fst (snd n)), option_map f (snd (snd n))))) net.
(** The colour occurs on some belt. *)
Definition has_colour (net : network) (c : Z) : Prop := (0 < consumed net c \/ 0 < produced net c)%Z.

(** Two splitters that differ at most in the order of the belts of a side. *)
Definition same_belts (s t : side) : Prop := t = s \/ t = (snd s, fst s).
Definition same_node (a b : splitter) : Prop := same_belts (fst a) (fst b) /\ same_belts (snd a) (snd b).

(** How many of a splitter's outputs leave the network, less how many of its
    inputs enter it. *)
Definition leaving (net : network) (s : side) : Z :=
  let one c := match c with Some x => if (consumed net x =? 0)%Z then 1%Z else 0%Z | None => 0%Z end in (one (fst s) + one (snd s))%Z.
Definition entering (net : network) (s : side) : Z :=
  let one c := match c with Some x => if (produced net x =? 0)%Z then 1%Z else 0%Z | None => 0%Z end in (one (fst s) + one (snd s))%Z.
Definition rank (net : network) (n : splitter) : Z := (leaving net (snd n) - entering net (fst n))%Z.
