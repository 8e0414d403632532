(** Blocks of belts without splitters, and single loops. *)
From Coq Require Import ZArith List Bool.
From Verif Require Import Spec_Tile Spec_Layout Spec_Pattern.
Import ListNotations.
Open Scope Z_scope.

Section Loop.
  Variable A : area.
  Variable T : layout.
  Variable L : Z.

  (** Items in [p] go on to [q], over the ground or through a tunnel. *)
  Definition follows (p q : pos) : Prop := hands_on A T p q \/ sends_under A T L p q.

  (** One closed tour through all cells, each visited once. *)
  Definition single_loop : Prop := exists cell : Z -> pos,
    let n := aw A * ah A in
    (forall i, 0 <= i < n -> inside A (cell i)) /\
    (forall p, inside A p -> exists i, 0 <= i < n /\ cell i = p) /\
    (forall i j, 0 <= i < n -> 0 <= j < n -> cell i = cell j -> i = j) /\
    (forall i, 0 <= i < n -> follows (cell i) (cell ((i + 1) mod n))).

  (** Nothing enters or leaves through a border that does not wrap. *)
  Definition sealed : Prop := forall p d, inside A p -> neighbour A p d = None -> ~ takes (T p) (opposite d) /\ ~ pushes (T p) d.

  (** A valid layout of belts and tunnels without splitters, wasteful squares
      and wasteful tunnels. *)
  Definition block (allow_empty : bool) : Prop :=
    valid_layout A T L /\ sealed /\
    (forall p, inside A p -> ~ is_splitter_tile (T p)) /\
    (allow_empty = false -> forall p, inside A p -> T p <> Empty) /\
    ~ small_loop A T /\
    (forall p d k, inside A p -> ~ empty_tunnel A T p d k).
End Loop.
