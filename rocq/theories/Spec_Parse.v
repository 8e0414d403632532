(** The network that a belt layout is, read off its lines of belts. *)
From Coq Require Import ZArith List Bool.
From Verif Require Import Spec_Tile Spec_Layout M_Network Spec_Network Spec_Balancer.
Import ListNotations.
Open Scope Z_scope.

Section Read.
  Variable A : area.
  Variable T : layout.
  Variable L : Z.

  (** All the splitters of the layout, each once. *)
  Definition all_splitters (ss : list (pos * pos)) : Prop :=
    NoDup (map fst ss) /\ (forall s, In s ss -> is_splitter_at A T s) /\
    forall p d, inside A p -> T p = Splitter d true -> In p (map fst ss).

  (** The border lies in front of the splitter half at [p]. *)
  Definition faces_out (p : pos) : Prop := exists d h, T p = Splitter d h /\ neighbour A p d = None.

  (** What the input of the splitter half at [p] is called: 0 when its line
      enters the layout, [j + 1] when it comes from splitter [j], None when no line
      leads there.  A half at the border counts as an inlet only with [edge]. *)
  Inductive input_is (edge : bool) (ss : list (pos * pos)) (p : pos) : colour -> Prop :=
  | input_inlet q : joined A T L (Enter q) (Entrance p) -> (q = p -> edge = true) -> input_is edge ss p (Some 0)
  | input_from j s b : nth_error ss j = Some s -> joined A T L (Exit (half s b)) (Entrance p) -> input_is edge ss p (Some (Z.of_nat j + 1))
  | input_none : (forall s, joined A T L s (Entrance p) -> edge = false /\ s = Enter p) -> input_is edge ss p None.

  (** What the output of the half at [p] of splitter [i] is called: [i + 1] when
      its line leads to a splitter, and one more than the number of splitters when it
      leaves the layout. *)
  Inductive output_is (edge : bool) (ss : list (pos * pos)) (i : nat) (p : pos) : colour -> Prop :=
  | output_outlet q : joined A T L (Exit p) (Leave q) -> output_is edge ss i p (Some (Z.of_nat (length ss) + 1))
  | output_edge : edge = true -> faces_out p -> output_is edge ss i p (Some (Z.of_nat (length ss) + 1))
  | output_to q : joined A T L (Exit p) (Entrance q) -> output_is edge ss i p (Some (Z.of_nat i + 1))
  | output_none : (forall f, ~ joined A T L (Exit p) f) -> (faces_out p -> edge = false) -> output_is edge ss i p None.

  (** [net] is the network of the layout, its splitters listed as in [ss]. *)
  Definition network_of (edge : bool) (ss : list (pos * pos)) (net : network) : Prop :=
    length net = length ss /\
    forall i s nd b, nth_error ss i = Some s -> nth_error net i = Some nd ->
      input_is edge ss (half s b) (pick (fst nd) b) /\ output_is edge ss i (half s b) (pick (snd nd) b).
End Read.

(** When the program can read the layout: no half of a splitter has an empty
    tile before or behind it ... *)
Definition no_gaps (A : area) (T : layout) : Prop :=
  forall p d h q, inside A p -> T p = Splitter d h -> neighbour A p d = Some q \/ neighbour A p (opposite d) = Some q -> T q <> Empty.
(** ... and the line of no tunnel that starts in the top row is found behind that
    tunnel.  The tiles are visited column by column, each column from the top;
    the first tile of a line that is visited is where the line is found.  It lies
    behind the tunnel when the exit of the tunnel leads there, unless the line is a
    loop: then only the exit itself does. *)
Definition visited_before (p q : pos) : Prop := fst p < fst q \/ fst p = fst q /\ snd p < snd q.
Definition found_at (A : area) (T : layout) (L : Z) (s : pos) : Prop :=
  ~ is_splitter_tile (T s) /\
  forall q, inside A q -> ~ is_splitter_tile (T q) -> carried A T L s q \/ carried A T L q s -> ~ visited_before q s.
Definition late_top_tunnel (A : area) (T : layout) (L : Z) : Prop :=
  exists p r s, snd p = 0 /\ sends_under A T L p r /\ carried A T L r s /\ (carried A T L s r -> s = r) /\ found_at A T L s.
(** In particular no tunnel may start in the top row at all. *)
Definition top_row_clear (A : area) (T : layout) : Prop :=
  forall p d, inside A p -> snd p = 0 -> T p <> Underground d true.

(** No line leads from the border to the border past all splitters. *)
Definition no_through (A : area) (T : layout) (L : Z) : Prop := forall p q, ~ joined A T L (Enter p) (Leave q).
(** The inlets that count: a splitter half at the border is one only with [edge]. *)
Definition counted_inlets (A : area) (T : layout) (edge : bool) (ins : list pos) : Prop :=
  NoDup ins /\ forall p, In p ins <-> begins A T (Enter p) p /\ (edge = true \/ ~ is_splitter_tile (T p)).
(** With [edge] a splitter half that faces the border would be an output. *)
Definition none_face_out (A : area) (T : layout) (edge : bool) : Prop := edge = true -> forall p, inside A p -> ~ faces_out A T p.
