(** What a working Factorio belt layout on a rectangle is.  Written without
    reference to the encoding; used by the grid, rotation and blueprint
    theorems. *)
From Coq Require Import ZArith List Bool.
From Verif Require Import Spec_Tile.
Import ListNotations.
Open Scope Z_scope.

(** A [w] x [h] rectangle, each axis either closed or wrapping round. *)
Record area := { aw : Z; ah : Z; wrapx : bool; wrapy : bool }.

Definition pos : Type := (Z * Z)%type.

Definition inside (A : area) (p : pos) : Prop :=
  0 <= fst p < aw A /\ 0 <= snd p < ah A.
Definition insideb (A : area) (p : pos) : bool :=
  ((0 <=? fst p) && (fst p <? aw A)) && ((0 <=? snd p) && (snd p <? ah A)).

(** The cell reached at coordinates [(x, y)], if any: coordinates are taken
    modulo the size on a wrapping axis. *)
Definition place (A : area) (p : pos) : option pos :=
  let q := (if wrapx A then fst p mod aw A else fst p,
            if wrapy A then snd p mod ah A else snd p) in
  if insideb A q then Some q else None.

(** The cell [k] steps from [p] in direction [d]. *)
Definition ahead (A : area) (p : pos) (d : dir) (k : Z) : option pos :=
  place A (fst p + k * step_x d, snd p + k * step_y d).

Definition neighbour (A : area) (p : pos) (d : dir) : option pos := ahead A p d 1.

(** A layout assigns a tile to every cell. *)
Definition layout : Type := pos -> tile.

(** A tile hands items on in direction [d]. *)
Definition pushes (t : tile) (d : dir) : Prop :=
  match t with
  | Belt _ o => o = d
  | Underground e false => e = d
  | Splitter e _ => e = d
  | _ => False
  end.

(** A tile receives items that move in direction [d]. *)
Definition takes (t : tile) (d : dir) : Prop :=
  match t with
  | Belt i _ => i = d
  | Underground e true => e = d
  | Splitter e _ => e = d
  | _ => False
  end.

Definition is_splitter_tile (t : tile) : Prop :=
  match t with Splitter _ _ => True | _ => False end.

(** An underground end lying on the line of a tunnel in direction [d]. *)
Definition blocks_tunnel (t : tile) (d : dir) : Prop :=
  match t with Underground e _ => same_axis e d = true | _ => False end.

(** The side on which the other half of a splitter lies: anticlockwise of the
    head, clockwise of the other half. *)
Definition anticlockwise (d : dir) : dir :=
  match d with RIGHT => UP | UP => LEFT | LEFT => DOWN | DOWN => RIGHT end.
Definition clockwise (d : dir) : dir :=
  match d with RIGHT => DOWN | DOWN => LEFT | LEFT => UP | UP => RIGHT end.
Definition mate_side (d : dir) (head : bool) : dir :=
  if head then anticlockwise d else clockwise d.

Section Rules.
  Variable A : area.
  Variable T : layout.

  (** Only belts, undergrounds, splitters and empty cells occur, and no belt
      turns back on itself. *)
  Definition belt_tiles : Prop := forall p, inside A p ->
    match T p with
    | Empty | Underground _ _ | Splitter _ _ => True
    | Belt i o => o <> opposite i
    | _ => False
    end.

  (** Each splitter half has its other half beside it. *)
  Definition splitters_paired : Prop := forall p d head, inside A p ->
    T p = Splitter d head ->
    exists q, neighbour A p (mate_side d head) = Some q /\ T q = Splitter d (negb head).

  (** A belt or an underground exit hands its items to a tile that receives
      from that direction. *)
  Definition outputs_received : Prop := forall p d q, inside A p ->
    pushes (T p) d -> ~ is_splitter_tile (T p) -> neighbour A p d = Some q -> takes (T q) d.

  (** A belt or an underground entrance is supplied by the tile behind it. *)
  Definition inputs_supplied : Prop := forall p d q, inside A p ->
    takes (T p) d -> ~ is_splitter_tile (T p) -> neighbour A p (opposite d) = Some q -> pushes (T q) d.

  (** A splitter does not push onto the side of a belt. *)
  Definition no_side_loading : Prop := forall p d head q i o, inside A p ->
    T p = Splitter d head -> neighbour A p d = Some q -> T q = Belt i o -> i = d.

  (** Each splitter half is in use on at least one of its two sides. *)
  Definition splitters_used : Prop := forall p d head, inside A p ->
    T p = Splitter d head ->
    (forall q, neighbour A p (opposite d) = Some q -> pushes (T q) d) \/
    (forall q, neighbour A p d = Some q -> takes (T q) d).

  (** From [p] in direction [d] a tunnel of at most [L] hidden cells, at least
      one, leads to [q]. *)
  Definition tunnel (L : Z) (p : pos) (d : dir) (q : pos) : Prop :=
    exists k, 2 <= k <= L + 1 /\ ahead A p d k = Some q /\
      forall j, 0 < j < k -> exists r, ahead A p d j = Some r /\ ~ blocks_tunnel (T r) d.

  Definition entrances_paired (L : Z) : Prop := forall p d, inside A p ->
    T p = Underground d true -> exists q, T q = Underground d false /\ tunnel L p d q.

  Definition exits_paired (L : Z) : Prop := forall p d, inside A p ->
    T p = Underground d false -> exists q, inside A q /\ T q = Underground d true /\ tunnel L q d p.

  Definition valid_layout (L : Z) : Prop :=
    belt_tiles /\ splitters_paired /\ outputs_received /\ inputs_supplied /\
    no_side_loading /\ splitters_used /\ entrances_paired L /\ exits_paired L.
End Rules.

(** How items travel between cells: a belt or an underground exit hands them
    to the next cell, an underground entrance sends them to its exit.  Splitters
    are where lines end, so they hand nothing on here. *)
Section Carry.
  Variable A : area.
  Variable T : layout.

  Definition hands_on (p q : pos) : Prop :=
    inside A p /\ ~ is_splitter_tile (T p) /\ exists d, pushes (T p) d /\ neighbour A p d = Some q.
  Definition sends_under (L : Z) (p q : pos) : Prop :=
    inside A p /\ exists d, T p = Underground d true /\ T q = Underground d false /\ tunnel A T L p d q.

  Inductive carried (L : Z) : pos -> pos -> Prop :=
  | carried_here p : carried L p p
  | carried_belt p q r : hands_on p q -> carried L q r -> carried L p r
  | carried_under p q r : sends_under L p q -> carried L q r -> carried L p r.
End Carry.
