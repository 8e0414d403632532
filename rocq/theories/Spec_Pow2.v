(** What belt_balancer_net_free_power_of_2.py looks for, and the columns of
    splitters that it leaves to the user. *)
From Coq Require Import ZArith List Bool.
From Verif Require Import Spec_Tile Spec_Layout Spec_Balancer Spec_Flow Spec_Interchange Spec_Main.
Import ListNotations.
Open Scope Z_scope.

(** A layout [T] of width [w] between two columns of splitters, with a column of
    belts at either end.  The rows [2 k] and [2 k + 1] share the splitters. *)
Definition framed (w : Z) (T : layout) : layout := fun p =>
  if (fst p =? 0) || (fst p =? w + 3) then Belt RIGHT RIGHT
  else if (fst p =? 1) || (fst p =? w + 2) then Splitter RIGHT (Z.odd (snd p))
  else T (fst p - 2, snd p).

Section Inner.
  Variables w h L : Z.
  Notation A := (rectangle w h).

  (** Items enter at every cell of the first column and leave at every cell of
      the last one, both columns are straight belts, and items enter or leave
      nowhere else.  All four sides of a splitter are connected. *)
  Record inner_part (T : layout) : Prop := {
    in_valid : valid_layout A T L;
    in_first : forall y, 0 <= y < h -> T (0, y) = Belt RIGHT RIGHT;
    in_last : forall y, 0 <= y < h -> T (w - 1, y) = Belt RIGHT RIGHT;
    in_inlets : inlets A T (rows 0 0 h);
    in_outlets : outlets A T (rows (w - 1) 0 h);
    in_connected : forall p d b, inside A p -> T p = Splitter d b ->
      (exists q, neighbour A p d = Some q /\ takes (T q) d) /\ exists q, neighbour A p (opposite d) = Some q /\ pushes (T q) d }.

  (** The rows [2 c] and [2 c + 1] are the pair [c].  [S p c] says that the belt
      at [p] carries items of the pair [c]; the number of these pairs. *)
  Definition members (X : Z -> bool) : Z := Z.of_nat (length (filter X (map Z.of_nat (seq 0 (Z.to_nat (h / 2)))))).
  (** Every line carries the pairs of its beginning.  A splitter joins two sets
      without a common pair, of the size [2 ^ i] for some [i < log2 h - 2]; for
      each such [i] there are [h / 2] splitters.  What two neighbouring outputs
      carry are complements. *)
  Record grouped (T : layout) (S : pos -> Z -> bool) : Prop := {
    gr_lines : forall p q c, carried A T L p q -> 0 <= c < h / 2 -> S p c = S q c;
    gr_first : forall y c, 0 <= y < h -> 0 <= c < h / 2 -> S (0, y) c = (c =? y / 2);
    gr_last : forall k c, 0 <= k < h / 2 -> 0 <= c < h / 2 -> S (w - 1, 2 * k + 1) c = negb (S (w - 1, 2 * k) c);
    gr_joins : forall s d p q c, is_splitter_at A T s -> T (fst s) = Splitter d true ->
      neighbour A (fst s) d = Some p -> neighbour A (snd s) d = Some q -> 0 <= c < h / 2 ->
      S (fst s) c && S (snd s) c = false /\ S p c = S (fst s) c || S (snd s) c /\ S q c = S (fst s) c || S (snd s) c;
    gr_sizes : forall s, is_splitter_at A T s -> exists i, 0 <= i < Z.log2 h - 2 /\ members (S (fst s)) = 2 ^ i /\ members (S (snd s)) = 2 ^ i;
    gr_levels : forall i, 0 <= i < Z.log2 h - 2 -> exists sp, NoDup sp /\
      (forall s, In s sp <-> is_splitter_at A T s /\ members (S (fst s)) = 2 ^ i) /\ Z.of_nat (length sp) = h / 2 }.
End Inner.

(** The tunnels are at most [l] long, or of any length for -1.  The patterns to
    be avoided are those that --fast of belt_balancer.py avoids. *)
Definition fast_options (l : Z) (partial : option (list (list tile))) : options := {|
  o_90 := false; o_180 := false; o_custom := true; o_aligned := false; o_use_ends := false;
  o_edge_splitters := false; o_edge_belts := false; o_glue := false; o_expand := false;
  o_mergeable := false; o_patterns := false; o_symmetry := false; o_fast := true;
  o_length := l; o_partial := partial |}.
