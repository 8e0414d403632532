(** What belt_balancer_net_free.py looks for, for as many outputs as inputs. *)
From Coq Require Import ZArith List Bool.
From Verif Require Import Spec_Tile Spec_Layout Spec_Balancer Spec_Flow Spec_Interchange Spec_Main Spec_Pow2.
Import ListNotations.
Open Scope Z_scope.

(** The units in which a full belt is measured: the least number that both [n]
    and the power of two next to [n] divide. *)
Definition units (n : Z) : Z := Z.lcm n (2 ^ Z.log2_up n).

Section Free.
  Variables w h L n : Z.
  Notation A := (rectangle w h).

  (** [n] straight belts, in rows that follow each other, lead into the first
      column from row [i] on, as many out of the last column from row [j] on, and
      the two columns hold nothing else.  Items enter and leave nowhere else.
      All four sides of a splitter are connected. *)
  Record open_part (T : layout) (i j : Z) : Prop := {
    op_valid : valid_layout A T L;
    op_first : Spec_Flow.straight_ends T (fun y => (0, y)) h n i;
    op_last : Spec_Flow.straight_ends T (fun y => (w - 1, y)) h n j;
    op_inlets : inlets A T (rows 0 i n);
    op_outlets : outlets A T (rows (w - 1) j n);
    op_connected : forall p d b, inside A p -> T p = Splitter d b ->
      (exists q, neighbour A p d = Some q /\ takes (T q) d) /\ exists q, neighbour A p (opposite d) = Some q /\ pushes (T q) d }.

  (** [F c p] is what the belt at [p] carries of input [c] when that input alone
      is full, in whole units; the input is the one in the row that is [c] modulo
      [n].  All inputs but one are followed.  Lines deliver what they are given,
      splitters halve, every output gets the [n]th part, and no splitter gets the
      same of every input from its two sides. *)
  Record measured (T : layout) (i j : Z) (F : Z -> pos -> Z) : Prop := {
    me_range : forall c p, 0 <= c < n - 1 -> inside A p -> 0 <= F c p <= units n;
    me_lines : forall c p q, 0 <= c < n - 1 -> carried A T L p q -> F c p = F c q;
    me_first : forall c y, 0 <= c < n - 1 -> i <= y < i + n -> F c (0, y) = if y mod n =? c then units n else 0;
    me_last : forall c y, 0 <= c < n - 1 -> j <= y < j + n -> n * F c (w - 1, y) = units n;
    me_halves : forall c s d p q, 0 <= c < n - 1 -> is_splitter_at A T s -> T (fst s) = Splitter d true ->
      neighbour A (fst s) d = Some p -> neighbour A (snd s) d = Some q ->
      2 * F c p = F c (fst s) + F c (snd s) /\ F c q = F c p;
    me_useful : forall s, is_splitter_at A T s -> exists c, 0 <= c < n - 1 /\ F c (fst s) <> F c (snd s) }.
End Free.

(** The tunnels are at most [l] long, or of any length for -1.  The patterns to
    be avoided are those that --fast and --edge-belts of belt_balancer.py avoid. *)
Definition free_options (l : Z) (partial : option (list (list tile))) : options := {|
  o_90 := false; o_180 := false; o_custom := true; o_aligned := false; o_use_ends := false;
  o_edge_splitters := false; o_edge_belts := true; o_glue := false; o_expand := false;
  o_mergeable := false; o_patterns := false; o_symmetry := false; o_fast := true;
  o_length := l; o_partial := partial |}.
