(** What belt_balancer_net_free.py looks for when the numbers of inputs and
    outputs differ. *)
From Coq Require Import ZArith List Bool.
From Verif Require Import Spec_Tile Spec_Layout Spec_Balancer Spec_Flow Spec_Interchange.
Import ListNotations.
Open Scope Z_scope.

(** The units in which a full belt is measured: the least positive number that
    [n], [m], 2 and the power of two next to the smaller of [n] and [m] divide. *)
Definition share_units (n m : Z) : Z := Z.lcm (2 ^ Z.log2_up (Z.min n m)) (Z.lcm 2 (Z.lcm n m)).

Section Share.
  Variables w h L n m : Z.
  Notation A := (rectangle w h).
  Notation M := (share_units n m).

  (** [n] straight belts, in rows that follow each other, lead into the first
      column from row [i] on, [m] lead out of the last column from row [j] on, and
      the two columns hold nothing else.  Items enter and leave nowhere else, and
      no splitter faces the edge of the grid or stands with its back to it. *)
  Record open_sides (T : layout) (i j : Z) : Prop := {
    os_valid : valid_layout A T L;
    os_first : Spec_Flow.straight_ends T (fun y => (0, y)) h n i;
    os_last : Spec_Flow.straight_ends T (fun y => (w - 1, y)) h m j;
    os_inlets : inlets A T (rows 0 i n);
    os_outlets : outlets A T (rows (w - 1) j m);
    os_room : forall p d b, inside A p -> T p = Splitter d b -> neighbour A p d <> None /\ neighbour A p (opposite d) <> None }.

  (** The tile behind [p] hands items to it; the tile in front of [p] takes items. *)
  Definition fed (T : layout) (p : pos) (d : dir) : Prop := exists q, neighbour A p (opposite d) = Some q /\ pushes (T q) d.
  Definition drained (T : layout) (p : pos) (d : dir) : Prop := exists q, neighbour A p d = Some q /\ takes (T q) d.

  (** The numbers that follow [k] sources: two are shared equally by two, one is
      split in two, or two are added. *)
  Definition halve_to (k : Z) (F : Z -> pos -> Z) (x x' y y' : pos) : Prop :=
    forall c, 0 <= c < k -> 2 * F c y = F c x + F c x' /\ F c y' = F c y.
  Definition split_to (k : Z) (F : Z -> pos -> Z) (x y y' : pos) : Prop :=
    forall c, 0 <= c < k -> 2 * F c y = F c x /\ F c y' = F c y.
  Definition add_to (k : Z) (F : Z -> pos -> Z) (x x' y : pos) : Prop :=
    forall c, 0 <= c < k -> F c y = F c x + F c x'.

  (** A splitter of the halves [p] and [p'], with [q] and [q'] in front of them.
      At most one of its four sides leads nowhere. *)
  Definition shared_at (T : layout) (F B : Z -> pos -> Z) (p p' q q' : pos) (d : dir) : Prop :=
    (fed T p d /\ fed T p' d /\ drained T p d /\ drained T p' d /\
       halve_to n F p p' q q' /\ halve_to m B q q' p p' /\ exists c, 0 <= c < n /\ F c p <> F c p') \/
    (drained T p d /\ drained T p' d /\ exists x, (x = p /\ fed T p d /\ ~ fed T p' d \/ x = p' /\ ~ fed T p d /\ fed T p' d) /\
       split_to n F x q q' /\ add_to m B q q' x) \/
    (fed T p d /\ fed T p' d /\ exists x, (x = q /\ drained T p d /\ ~ drained T p' d \/ x = q' /\ ~ drained T p d /\ drained T p' d) /\
       add_to n F p p' x /\ split_to m B x p p').

  (** [F c p] is what the belt at [p] carries of input [c] when the belts of the
      inputs carry as much as the outputs can take; the input is the one in the
      row that is [c] modulo [n].  [B c p] is the part of the belt at [p] that
      flows to output [c], in the row that is [c] modulo [m].  Lines keep both,
      splitters share the first forwards and the second backwards, and every
      output gets the same of each input, and the other way round.  No belt holds
      [2 ^ log2 M] units, which is more than half a belt, of two inputs. *)
  Record measured_twice (T : layout) (i j : Z) (F B : Z -> pos -> Z) : Prop := {
    mt_range : forall p, inside A p -> (forall c, 0 <= c < n -> 0 <= F c p <= M) /\ (forall c, 0 <= c < m -> 0 <= B c p <= M);
    mt_most : forall p, inside A p ->
      (forall c c', 0 <= c < n -> 0 <= c' < n -> 2 ^ Z.log2 M <= F c p -> 2 ^ Z.log2 M <= F c' p -> c = c') /\
      (forall c c', 0 <= c < m -> 0 <= c' < m -> 2 ^ Z.log2 M <= B c p -> 2 ^ Z.log2 M <= B c' p -> c = c');
    mt_lines : forall p q, carried A T L p q -> (forall c, 0 <= c < n -> F c p = F c q) /\ (forall c, 0 <= c < m -> B c p = B c q);
    mt_first : forall y, i <= y < i + n ->
      (forall c, 0 <= c < n -> n * F c (0, y) = if y mod n =? c then M * Z.min n m else 0) /\
      (forall c, 0 <= c < m -> n * m * B c (0, y) = M * Z.min n m);
    mt_last : forall y, j <= y < j + m ->
      (forall c, 0 <= c < n -> n * m * F c (w - 1, y) = M * Z.min n m) /\
      (forall c, 0 <= c < m -> m * B c (w - 1, y) = if y mod m =? c then M * Z.min n m else 0);
    mt_splitters : forall s d q q', is_splitter_at A T s -> T (fst s) = Splitter d true ->
      neighbour A (fst s) d = Some q -> neighbour A (snd s) d = Some q' -> shared_at T F B (fst s) (snd s) q q' d }.
End Share.

(** No splitter faces the back of another one. *)
Definition apart (A : area) (T : layout) : Prop := forall p d k q k', inside A p -> T p = Splitter d k -> neighbour A p d = Some q -> T q <> Splitter d k'.
