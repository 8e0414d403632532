(** What the options of belt_balancer.py ask of a layout, described on the
    layout alone. *)
From Coq Require Import ZArith List Bool.
From Verif Require Import Spec_Tile Spec_Layout Spec_Pattern M_Network.
Import ListNotations.
Open Scope Z_scope.

Section Options.
  Variable A : area.
  Variable T : layout.

  (** ** --partial *)
  (** The layout has the tiles of [G], a list of rows that starts in the corner
      (0, 0), wherever [G] is not empty; where [G] has a filler it is empty. *)
  Definition extends (G : list (list tile)) : Prop := forall x y r t,
    nth_error G y = Some r -> nth_error r x = Some t -> t <> Empty ->
    T (Z.of_nat x, Z.of_nat y) = match t with Filler => Empty | _ => t end.

  (** The rows of the layout, for a grid of the size [w] x [h]. *)
  Definition written (w h : Z) : list (list tile) :=
    map (fun y => map (fun x => T (Z.of_nat x, Z.of_nat y)) (seq 0 (Z.to_nat w))) (seq 0 (Z.to_nat h)).

  (** ** The ends *)
  (** The cells [at_ 0], ..., [at_ (k - 1)] are an edge.  Items enter the layout
      there in direction [d] at [n] cells in a row, from the number [i] on.  The
      other cells are empty; if [free], they are belts that items do not enter
      from outside.  There is no block in the last [n] cells, unless it is the
      whole edge. *)
  Definition entered (at_ : Z -> pos) (k : Z) (d : dir) (free : bool) (n i : Z) : Prop :=
    if k =? n then forall y, 0 <= y < k -> takes (T (at_ y)) d
    else 0 <= i < k - n /\ forall y, 0 <= y < k ->
      (i <= y < i + n -> exists o, T (at_ y) = Belt d o) /\
      (~ i <= y < i + n -> if free then exists e o, T (at_ y) = Belt e o /\ e <> d else T (at_ y) = Empty).
  (** Items leave the layout there in direction [d]. *)
  Definition left_at (at_ : Z -> pos) (k : Z) (d : dir) (free : bool) (n i : Z) : Prop :=
    if k =? n then forall y, 0 <= y < k -> exists e, T (at_ y) = Belt e d
    else 0 <= i < k - n /\ forall y, 0 <= y < k ->
      (i <= y < i + n -> exists e, T (at_ y) = Belt e d) /\
      (~ i <= y < i + n -> if free then ~ pushes (T (at_ y)) d else T (at_ y) = Empty).

  Definition left_edge (y : Z) : pos := (0, y).
  Definition right_edge (y : Z) : pos := (aw A - 1, y).
  Definition lower_edge (x : Z) : pos := (x, ah A - 1).

  (** [n] inputs on the left, [m] outputs on the right; [aligned]: the shorter of
      the two blocks lies beside the longer one. *)
  Definition straight_ends (aligned free : bool) (n m : Z) : Prop := exists i j,
    entered left_edge (ah A) RIGHT free n i /\ left_at right_edge (ah A) RIGHT free m j /\
    (aligned = true -> if m <=? n then (n < ah A -> i <= j /\ j + m <= i + n) else (m < ah A -> j <= i /\ i + n <= j + m)).
  Definition turned_ends (free : bool) (n m : Z) : Prop := exists i j,
    entered left_edge (ah A) RIGHT free n i /\ left_at lower_edge (aw A) DOWN free m j.
  Definition returning_ends (n m : Z) : Prop := exists i j,
    entered left_edge (ah A) RIGHT true n i /\ left_at left_edge (ah A) LEFT true m j.

  (** ** --edge-belts *)
  (** Two straight belts side by side next to an edge. *)
  Definition double_edge_belt : Prop := exists x y, (x = 1 \/ x = Z.max (aw A - 2) 1) /\ 0 <= y /\ y + 1 < ah A /\
    T (x, y) = Belt RIGHT RIGHT /\ T (x, y + 1) = Belt RIGHT RIGHT.

  (** ** Splitters *)
  (** The tile at [p] hands items over in direction [d]: to a tile that takes
      them, or over the border. *)
  Definition gives (p : pos) (d : dir) : Prop := pushes (T p) d /\ forall q, neighbour A p d = Some q -> takes (T q) d.
  Definition gets (p : pos) (d : dir) : Prop := takes (T p) d /\ forall q, neighbour A p (opposite d) = Some q -> pushes (T q) d.

  (** A belt at [p] that comes from direction [d] or [t] and leaves in
      direction [d], a tile beside it, in direction [t], that hands items over
      in this direction, and a splitter, whichever way it faces, in front of
      that tile: the half with [head] if [t] is anticlockwise from [d]. *)
  Definition parallel_splitter (p : pos) (d t : dir) : Prop := exists q r i e,
    neighbour A p t = Some q /\ spot A p d 1 t 1 = Some r /\ neighbour A p d <> None /\
    (i = d \/ i = t) /\ T p = Belt i d /\ gives q t /\
    ((t = anticlockwise d /\ T r = Splitter e true) \/ (t = clockwise d /\ T r = Splitter e false)).

  (** A splitter one half of which gets no items, after it two straight belts:
      it could stand one cell further on.  [p] is its head. *)
  Definition lagging_splitter (p : pos) (d : dir) : Prop := exists q p' q',
    neighbour A p (anticlockwise d) = Some q /\ neighbour A p d = Some p' /\ neighbour A q d = Some q' /\
    T p = Splitter d true /\ T p' = Belt d d /\ T q' = Belt d d /\
    (gets p d /\ ~ gets q d \/ ~ gets p d /\ gets q d).

  (** ** --break-symmetry *)
  (** A cell as a row of bits: which horizontal sides take and give items, what
      kind of tile it is, and which vertical sides take and give items.  [up] and
      [down] change places for the mirror image. *)
  Definition takesb (t : tile) (d : dir) : bool := match t with
    | Belt i _ => dir_eqb i d | Underground e b => b && dir_eqb e d | Splitter e _ => dir_eqb e d | _ => false end.
  Definition pushesb (t : tile) (d : dir) : bool := match t with
    | Belt _ o => dir_eqb o d | Underground e b => negb b && dir_eqb e d | Splitter e _ => dir_eqb e d | _ => false end.
  Definition kind_bits (t : tile) : list bool :=
    [match t with Belt _ _ => true | _ => false end; match t with Empty => true | _ => false end;
     match t with Splitter _ _ => true | _ => false end;
     match t with Underground _ true => true | _ => false end; match t with Underground _ false => true | _ => false end].
  Definition cell_bits (up down : dir) (t : tile) : list bool :=
    ([takesb t RIGHT; takesb t LEFT; pushesb t RIGHT; pushesb t LEFT] ++ kind_bits t ++
     [takesb t up; pushesb t up; takesb t down; pushesb t down])%list.
  Fixpoint not_after (l r : list bool) : bool := match l, r with
    | x :: l, y :: r => (negb x && y) || (Bool.eqb x y && not_after l r)
    | _, _ => true
    end.
  (** The upper half of the layout, read row by row, does not come after the
      lower half, read upside down. *)
  Definition upper_first : Prop :=
    let rows := map Z.of_nat (seq 0 (Z.to_nat (Z.max 2 (ah A / 2)))) in
    let columns := map Z.of_nat (seq 0 (Z.to_nat (aw A))) in
    not_after (flat_map (fun y => flat_map (fun x => cell_bits UP DOWN (T (x, y))) columns) rows)
              (flat_map (fun y => flat_map (fun x => cell_bits DOWN UP (T (x, ah A - 1 - y))) columns) rows) = true.
End Options.

(** ** The command line *)
(** The arguments of belt_balancer.py besides the network, the size, the solver
    and --all; [o_partial] is what the file given with --partial says. *)
Record options := {
  o_90 : bool; o_180 : bool; o_custom : bool; o_aligned : bool; o_use_ends : bool;
  o_edge_splitters : bool; o_edge_belts : bool; o_glue : bool; o_expand : bool;
  o_mergeable : bool; o_patterns : bool; o_symmetry : bool; o_fast : bool;
  o_length : Z; o_partial : option (list (list tile)) }.

(** The cell is not in the last column, nor is the one diagonally before it. *)
Definition before_last_column (A : area) (p : pos) (d : dir) : Prop :=
  fst p <= aw A - 2 /\ fst p + (step_x (anticlockwise d) + step_x d) <= aw A - 2.
(** The longest tunnel the patterns look at, for tunnels of the length [l]. *)
Definition looked_at (A : area) (l : Z) : Z := let m := Z.max (aw A) (ah A) - 2 in if l =? -1 then m else Z.min l m.

(** What the options ask of a layout [T] of the cells [A] with [n] inputs and
    [m] outputs; --edge-splitters is left out. *)
Record asked (o : options) (A : area) (n m : Z) (T : layout) : Prop := {
  as_edge_belts : o_edge_belts o = true -> ~ double_edge_belt A T;
  as_glue : o_glue o || o_fast o = true ->
    (forall p d, inside A p -> ~ (d = RIGHT /\ (fst p = 1 \/ fst p = aw A - 2)) -> ~ loose_splitter A T p d) /\
    (forall p d, inside A p -> before_last_column A p d -> ~ lagging_splitter A T p d);
  as_expand : o_expand o || o_fast o = true ->
    let region := in_region 1 0 (aw A - 2) (ah A - 1) in
    if o_length o =? -1 then forall p d, region p -> region (far p d 1) ->
      ~ (T p = Belt d d /\ T (far p d 1) = Underground d true) /\ ~ (T p = Underground d false /\ T (far p d 1) = Belt d d)
    else forall p d k, 2 <= k <= o_length o -> region p -> region (far p d (k + 1)) -> ~ late_entrance A T p d k /\ ~ early_exit A T p d k;
  as_mergeable : o_mergeable o || o_fast o = true ->
    forall p d k, inside A p -> k <= looked_at A (o_length o) + 1 -> ~ double_tunnel A T p d k;
  as_patterns : o_patterns o || o_fast o = true ->
    ~ small_loop A T /\ forall p d t, inside A p -> perpendicular d t ->
      ~ (exists i o, belt_hook A T p d t i o) /\ ~ (exists i o, semicircle A T p d t i o) /\
      ~ (exists i, hook_to_entrance A T p d t i) /\ ~ (exists o, hook_from_exit A T p d t o) /\
      ~ zigzag A T p d t /\ ~ parallel_splitter A T p d t;
  as_tunnels : forall p d k, inside A p -> k <= looked_at A (o_length o) + 1 -> ~ empty_tunnel A T p d k;
  as_mirror : o_symmetry o = true -> upper_first A T;
  as_partial : match o_partial o with Some G => extends T G | None => True end;
  as_ends : if o_90 o then turned_ends A T (o_use_ends o) n m
    else if o_180 o then returning_ends A T n m
    else if o_custom o then True
    else straight_ends A T (o_aligned o) (o_use_ends o) n m }.

(** ** When the program starts *)
(** Options that contradict each other: --edge-splitters and --edge-belts, two of
    --aligned, --90, --180 and --custom, --break-symmetry and --90. *)
Definition contradictory (o : options) : Prop :=
  (o_edge_splitters o = true /\ o_edge_belts o = true) \/
  (o_symmetry o = true /\ o_90 o = true) \/
  (o_aligned o = true /\ (o_90 o = true \/ o_180 o = true \/ o_custom o = true)) \/
  (o_90 o = true /\ (o_180 o = true \/ o_custom o = true)) \/
  (o_180 o = true /\ o_custom o = true).
(** The edges are long enough for the ends. *)
Definition ends_fit (o : options) (w h n m : Z) : Prop :=
  if o_90 o then n <= h /\ m <= w
  else if o_180 o then n <= h /\ m <= h
  else if o_custom o then True
  else n <= h /\ m <= h.
(** Every tile of --partial can be placed. *)
Definition placeable (w h : Z) (G : list (list tile)) : Prop := forall x y r t, nth_error G y = Some r -> nth_error r x = Some t -> t <> Empty ->
  Z.of_nat x < w /\ Z.of_nat y < h /\ match t with Inserter _ _ | Assembler _ _ => False | _ => True end.
(** The number of belts of a splitter that are missing. *)
Definition belts_missing (nd : splitter) : nat :=
  length (filter (fun c => match c with None => true | Some _ => false end) [fst (fst nd); snd (fst nd); fst (snd nd); snd (snd nd)]).
(** What the options need of each other, of the network [net] with [n] inputs and
    [m] outputs, and of the grid. *)
Record can_start (o : options) (net : network) (w h n m : Z) : Prop := {
  st_options : ~ contradictory o;
  st_length : o_length o = -1 \/ 1 <= o_length o;
  st_size : 1 <= w /\ 1 <= h;
  st_missing : forall nd, In nd net -> (belts_missing nd <= 1)%nat;
  st_ends : ends_fit o w h n m;
  st_edge_belts : o_edge_belts o = true -> w = 1 -> h = 1;
  st_symmetry : o_symmetry o = true -> 2 <= h;
  st_partial : match o_partial o with Some G => placeable w h G | None => True end }.
(** Two splitters are the same up to the order of the belts on a side. *)
Definition alike (nd nd' : splitter) : Prop :=
  (fst nd = fst nd' \/ fst nd = (snd (fst nd'), fst (fst nd'))) /\
  (snd nd = snd nd' \/ snd nd = (snd (snd nd'), fst (snd nd'))).
(** There is room for the splitters and the ends. *)
Record has_room (o : options) (net : network) (w h n m : Z) : Prop := {
  room_splitters : 2 * Z.of_nat (length net) <= w * h;
  room_ends : n <= w * h /\ m <= w * h;
  room_edges : o_edge_splitters o || o_fast o = true -> 2 <= w /\
    forall nd same, (forall i, In i same -> exists nd', nth_error net i = Some nd' /\ alike nd' nd) -> NoDup same -> Z.of_nat (length same) <= h }.
