(** What an interchange is: a belt layout that brings together lines from two
    groups of inputs. *)
From Coq Require Import ZArith List Bool.
From Verif Require Import Spec_Tile Spec_Layout Spec_Pattern M_Network Spec_Network Spec_Balancer Spec_Flow.
Import ListNotations.
Open Scope Z_scope.

Definition rectangle (w h : Z) : area := {| aw := w; ah := h; wrapx := false; wrapy := false |}.

Section Interchange.
  Variables w h L : Z.
  Notation A := (rectangle w h).

  (** Items enter at every cell of the first column, moving right, leave at
      every cell of the last one, moving right, and enter or leave nowhere else.
      There are no splitters.  Each pair of outputs gets a line from the upper
      half of the inputs and one from the lower half; in that order when the
      outputs alternate. *)
  Record interchange (alternating : bool) (T : layout) : Prop := {
    ic_valid : valid_layout A T L;
    ic_plain : forall p, inside A p -> ~ is_splitter_tile (T p);
    ic_first : forall y, 0 <= y < h -> takes (T (0, y)) RIGHT;
    ic_last : forall y, 0 <= y < h -> pushes (T (w - 1, y)) RIGHT;
    ic_inlets : inlets A T (rows 0 0 h);
    ic_outlets : outlets A T (rows (w - 1) 0 h);
    ic_mixed : forall k, 0 <= k < h / 2 -> exists y y',
      joined A T L (Enter (0, y)) (Leave (w - 1, 2 * k)) /\ joined A T L (Enter (0, y')) (Leave (w - 1, 2 * k + 1)) /\
      (0 <= y < h / 2 /\ h / 2 <= y' < h \/ alternating = false /\ h / 2 <= y < h /\ 0 <= y' < h / 2) }.

  (** [C] gives two colours to the cells: 0 to the lines of the upper half of the
      inputs, 1 to the lines of the lower half, any to cells without a line. *)
  Definition two_colours (T : layout) (C : pos -> Z) : Prop :=
    (forall p, inside A p -> C p = 0 \/ C p = 1) /\
    (forall p q, carried A T L p q -> C p = C q) /\
    forall y, 0 <= y < h -> C (0, y) = if y <? h / 2 then 0 else 1.

  (** Two pairs of belts of one colour passing each other in opposite
      directions. *)
  Definition passing (T : layout) (C : pos -> Z) (p : pos) (d : dir) : Prop := exists q r s,
    neighbour A p d = Some q /\ neighbour A p (anticlockwise d) = Some r /\ spot A p d 1 (anticlockwise d) 1 = Some s /\
    T p = Belt d d /\ T q = Belt d d /\ T r = Belt (opposite d) (opposite d) /\ T s = Belt (opposite d) (opposite d) /\
    C p = C q /\ C q = C r /\ C r = C s.

  (** A tunnel that comes out next to an empty cell, followed by belts that
      lead back around it. *)
  Definition awkward_exit (T : layout) (p : pos) (d : dir) : Prop :=
    let t := anticlockwise d in exists q r u v x y,
    spot A p t 0 d 1 = Some q /\ spot A p t 1 d 1 = Some r /\ spot A p t 2 d 1 = Some u /\
    spot A p t 0 d 2 = Some v /\ spot A p t 1 d 2 = Some x /\ spot A p t 2 d 2 = Some y /\
    T p = Empty /\ T q = Underground d false /\ T r = Empty /\
    T v = Belt d t /\ T x = Belt t t /\ T y = Belt t (opposite d) /\ T u = Belt (opposite d) (opposite d).

  (** The layout with all belts reversed, turned by half a turn, is the same. *)
  Definition reversed (t : tile) : tile :=
    match t with Belt i o => Belt o i | Underground d b => Underground d (negb b) | _ => t end.
  Definition half_turn_symmetric (T : layout) : Prop :=
    forall p, inside A p -> T (w - 1 - fst p, h - 1 - snd p) = reversed (T p).

  (** No wasteful patterns: those the options ask to avoid. *)
  Record tidy (rot_symmetry : bool) (T : layout) (C : pos -> Z) : Prop := {
    td_loops : ~ small_loop A T;
    td_empty : forall p d k, inside A p -> k <= L + 1 -> ~ empty_tunnel A T p d k;
    td_hooks : forall p d t, inside A p -> perpendicular d t -> ~ exists i o, belt_hook A T p d t i o;
    td_double : forall p d k, inside A p -> k <= L + 1 -> ~ double_tunnel A T p d k;
    td_semi : forall p d t, inside A p -> perpendicular d t -> ~ exists i o, semicircle A T p d t i o;
    td_under : forall p d t, inside A p -> perpendicular d t -> ~ ((exists i, hook_to_entrance A T p d t i) \/ exists o, hook_from_exit A T p d t o);
    td_options : if rot_symmetry
      then half_turn_symmetric T /\ forall p d k, inside A p -> 2 <= k <= L -> ~ late_entrance A T p d k /\ ~ early_exit A T p d k
      else forall p d t, inside A p -> perpendicular d t -> ~ zigzag A T p d t;
    td_passing : forall p d, inside A p -> ~ passing T C p d;
    td_awkward : forall p d, inside A p -> ~ awkward_exit T p d }.
End Interchange.
