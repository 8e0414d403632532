(** What it means that a network is simplified, independently of network.py.

    In this file a colour stands for one belt: it is the output of at most one
    splitter and the input of at most one. *)
From Coq Require Import ZArith QArith List.
From Verif Require Import M_Network.
Import ListNotations.
Local Open Scope Q_scope.

Definition belts (s : side) : list Z :=
  match s with
  | (Some a, Some b) => [a; b]
  | (Some a, None) => [a]
  | (None, Some b) => [b]
  | (None, None) => []
  end.
Definition ins (nd : splitter) : list Z := belts (fst nd).
Definition outs (nd : splitter) : list Z := belts (snd nd).
Definition single_belts (net : network) : Prop := NoDup (flat_map ins net) /\ NoDup (flat_map outs net).

(** A steady flow: what enters a splitter leaves it, in equal parts. *)
Definition total (F : Z -> Q) (l : list Z) : Q := fold_right Qplus 0 (map F l).
Definition shares (F : Z -> Q) (nd : splitter) : Prop :=
  total F (ins nd) == total F (outs nd) /\ forall x y, In x (outs nd) -> In y (outs nd) -> F x == F y.
Definition flow (net : network) (F : Z -> Q) : Prop := forall nd, In nd net -> shares F nd.

(** The belts that come from outside and those that lead outside. *)
Definition enters (net : network) (c : Z) : Prop := In c (flat_map ins net) /\ ~ In c (flat_map outs net).
Definition leaves (net : network) (c : Z) : Prop := In c (flat_map outs net) /\ ~ In c (flat_map ins net).
Definition absent (net : network) (c : Z) : Prop := ~ In c (flat_map ins net) /\ ~ In c (flat_map outs net).

(** Every splitter has an input and an output. *)
Definition proper (net : network) : Prop := forall nd, In nd net -> ins nd <> [] /\ outs nd <> [].
(** No belt is missing. *)
Definition no_gaps (net : network) : Prop := forall nd, In nd net -> length (ins nd) = 2%nat /\ length (outs nd) = 2%nat.

(** Two networks do the same: belts that lead outside keep their names, belts
    that come from outside are called [name c]; every flow of the one network is
    a flow of the other as far as the outside can tell. A belt from outside that
    is neither split nor merged leads directly outside. *)
Definition does_the_same (net net' : network) : Prop :=
  exists name : Z -> Z,
    (forall c, enters net c -> enters net' (name c) \/ (leaves net (name c) /\ absent net' (name c))) /\
    (forall c, leaves net c -> leaves net' c \/ (absent net' c /\ exists d, enters net d /\ name d = c)) /\
    (forall c d, enters net c -> enters net d -> name c = name d -> c = d) /\
    (forall d, enters net' d -> exists c, enters net c /\ name c = d) /\
    (forall c, leaves net' c -> leaves net c) /\
    (forall F, flow net F -> exists F', flow net' F' /\
       (forall c, enters net c -> F' (name c) == F c) /\ (forall c, leaves net c -> F' c == F c)) /\
    (forall F', flow net' F' -> exists F, flow net F /\
       (forall c, enters net c -> F c == F' (name c)) /\ (forall c, leaves net c -> F c == F' c)).

(** Nothing is left to simplify: no splitter without input or output, none with
    one of each, and no splitter whose outputs are just the inputs of another. *)
Definition irreducible (net : network) : Prop :=
  (forall nd, In nd net -> ins nd <> [] /\ outs nd <> [] /\ ~ (length (ins nd) = 1%nat /\ length (outs nd) = 1%nat)) /\
  (forall a b, In a net -> In b net -> a <> b -> ~ (forall c, In c (outs a) <-> In c (ins b))).

(** With bottlenecks: two splitters with one output each whose inputs come from
    the same two splitters, one from each; and the same the other way round. *)
Definition joins (net : network) (a b : splitter) : Prop :=
  length (outs a) = 1%nat /\ length (outs b) = 1%nat /\
  exists s t x1 x2 y1 y2, In s net /\ In t net /\ s <> t /\
    In x1 (ins a) /\ In x2 (ins a) /\ In y1 (ins b) /\ In y2 (ins b) /\
    In x1 (outs s) /\ In y1 (outs s) /\ In x2 (outs t) /\ In y2 (outs t).
Definition forks (net : network) (a b : splitter) : Prop :=
  length (ins a) = 1%nat /\ length (ins b) = 1%nat /\
  exists s t x1 x2 y1 y2, In s net /\ In t net /\ s <> t /\
    In x1 (outs a) /\ In x2 (outs a) /\ In y1 (outs b) /\ In y2 (outs b) /\
    In x1 (ins s) /\ In y1 (ins s) /\ In x2 (ins t) /\ In y2 (ins t).
Definition no_bottleneck_left (net : network) : Prop :=
  forall a b, In a net -> In b net -> a <> b -> ~ joins net a b /\ ~ forks net a b.
