(** Wasteful patterns in a belt layout, described on the layout alone. *)
From Coq Require Import ZArith List Bool.
From Verif Require Import Spec_Tile Spec_Layout.
Import ListNotations.
Open Scope Z_scope.

(** [d] and [t] are at right angles. *)
Definition perpendicular (d t : dir) : Prop := t = anticlockwise d \/ t = clockwise d.
(** A rectangle of cells. *)
Definition in_region (min_x min_y max_x max_y : Z) (p : pos) : Prop := min_x <= fst p <= max_x /\ min_y <= snd p <= max_y.
(** The coordinates [k] steps away, inside the rectangle or not. *)
Definition far (p : pos) (d : dir) (k : Z) : pos := (fst p + k * step_x d, snd p + k * step_y d).
(** The coordinates one step away, inside the rectangle or not. *)
Definition go (p : pos) (d : dir) : pos := (fst p + step_x d, snd p + step_y d).
(** The cell [i] steps along [d] and [j] steps along [t] from [p]. *)
Definition spot (A : area) (p : pos) (d : dir) (i : Z) (t : dir) (j : Z) : option pos :=
  place A (fst p + (i * step_x d + j * step_x t), snd p + (i * step_y d + j * step_y t)).

Section Patterns.
  Variable A : area.
  Variable T : layout.

  (** Four belts in a square going round, not across a border. *)
  Definition small_loop : Prop := exists p d t, perpendicular d t /\
    (inside A p /\ inside A (go p d) /\ inside A (go (go p d) t) /\ inside A (go p t)) /\
    T p = Belt (opposite t) d /\ T (go p d) = Belt d t /\
    T (go (go p d) t) = Belt t (opposite d) /\ T (go p t) = Belt (opposite d) (opposite t).

  (** A line of belts that makes a U around an edge between cells, [p] and its
      neighbour in direction [t], where a single step would do. *)
  Definition belt_hook (p : pos) (d t i o : dir) : Prop := exists p01 p11 p10,
    neighbour A p d = Some p01 /\ spot A p d 1 t 1 = Some p11 /\ neighbour A p t = Some p10 /\
    (i = d \/ i = t) /\ (o = t \/ o = opposite d) /\
    T p = Belt i d /\ T p01 = Belt d t /\ T p11 = Belt t (opposite d) /\ T p10 = Belt (opposite d) o.

  (** A line of belts that leads around an empty cell, where it could pass
      straight over it. *)
  Definition semicircle (p : pos) (d t i o : dir) : Prop := exists p01 p02 p10 p11 p12,
    neighbour A p d = Some p01 /\ spot A p d 2 t 0 = Some p02 /\
    neighbour A p t = Some p10 /\ spot A p d 1 t 1 = Some p11 /\ spot A p d 2 t 1 = Some p12 /\
    (i = d \/ i = t) /\ (o = opposite t \/ o = d) /\
    T p = Belt i t /\ T p10 = Belt t d /\ T p11 = Belt d d /\ T p12 = Belt d (opposite t) /\ T p02 = Belt (opposite t) o /\
    T p01 = Empty.

  (** Three turns one after the other around an empty cell. *)
  Definition zigzag (p : pos) (d t : dir) : Prop := exists p01 p10 p11,
    neighbour A p d = Some p01 /\ neighbour A p t = Some p10 /\ spot A p d 1 t 1 = Some p11 /\
    T p = Belt d t /\ T p10 = Belt t d /\ T p11 = Belt d t /\ T p01 = Empty.

  (** A tunnel from [p] to [q], [k] cells further. *)
  Definition bore (p : pos) (d : dir) (k : Z) (q : pos) : Prop :=
    2 <= k /\ T p = Underground d true /\ T q = Underground d false /\ ahead A p d k = Some q /\
    forall j, 0 < j < k -> exists r, ahead A p d j = Some r /\ ~ blocks_tunnel (T r) d.

  (** A tunnel under nothing. *)
  Definition empty_tunnel (p : pos) (d : dir) (k : Z) : Prop := exists q,
    2 <= k /\ T p = Underground d true /\ ahead A p d k = Some q /\ T q = Underground d false /\
    forall j, 0 < j < k -> exists r, ahead A p d j = Some r /\ T r = Empty.
  (** A straight belt before an entrance, and after an exit. *)
  Definition late_entrance (p : pos) (d : dir) (k : Z) : Prop := exists p' q,
    neighbour A p d = Some p' /\ T p = Belt d d /\ bore p' d k q.
  Definition early_exit (p : pos) (d : dir) (k : Z) : Prop := exists q q',
    bore p d k q /\ neighbour A q d = Some q' /\ T q' = Belt d d.
  (** Two tunnels one right after the other, over [k] cells from entrance to
      last exit. *)
  Definition double_tunnel (p : pos) (d : dir) (k : Z) : Prop := exists k1 q p' q',
    bore p d k1 q /\ neighbour A q d = Some p' /\ bore p' d (k - k1 - 1) q'.

  (** A line that turns back beside the entrance it leads to, with an empty
      cell to tunnel under just behind it; and the same at an exit.  [p] is the
      entrance or exit, [e] the empty cell beyond it. *)
  Definition hook_to_entrance (p : pos) (d t i : dir) : Prop := exists e pa pb pc,
    neighbour A p d = Some e /\ neighbour A p (opposite d) = Some pa /\
    spot A p d (-1) t (-1) = Some pb /\ neighbour A p (opposite t) = Some pc /\
    (i = opposite d \/ i = t) /\
    T pc = Belt i (opposite d) /\ T pb = Belt (opposite d) t /\ T pa = Belt t d /\ T p = Underground d true /\ T e = Empty.
  Definition hook_from_exit (p : pos) (d t o : dir) : Prop := exists e pa pb pc,
    neighbour A p d = Some e /\ neighbour A p (opposite d) = Some pa /\
    spot A p d (-1) t (-1) = Some pb /\ neighbour A p (opposite t) = Some pc /\
    (o = d \/ o = opposite t) /\
    T p = Underground (opposite d) false /\ T pa = Belt (opposite d) (opposite t) /\ T pb = Belt (opposite t) d /\ T pc = Belt d o /\ T e = Empty.

  (** Two straight belts that lead into a splitter: the splitter could stand one
      cell earlier. *)
  Definition loose_splitter (p : pos) (d : dir) : Prop := exists q0 q1,
    neighbour A p (opposite d) = Some q0 /\ spot A p d (-1) (anticlockwise d) 1 = Some q1 /\
    T p = Splitter d true /\ T q0 = Belt d d /\ T q1 = Belt d d.
End Patterns.
