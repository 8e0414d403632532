(** Model of belt_balancer_net_free_power_of_2.py: the inner part of n to n
    balancers where n is a power of two. *)
From Coq Require Import ZArith List Bool String.
From Verif Require Import Spec_Cnf Spec_Tile M_Json M_Tile M_Util M_Card M_Network M_Template M_Grid M_Oracle M_Balancer M_Optimise M_NetFree.
Import ListNotations.
Local Open Scope string_scope.
Open Scope Z_scope.

(** belt_balancer_net_free_power_of_2.py 19: int(math.log2(height)) - 2.  For
    heights 1 and 2 the number is negative; the lists and ranges it bounds are
    then empty, as for 0. *)
Definition levels (h : Z) : nat := Z.to_nat (Z.log2 h - 2).

(** belt_balancer_net_free_power_of_2.py 21. *)
Definition pow2_grid (w h : Z) (ul : option Z) : grid := {|
  geo := {| width := w; height := h; wrap_x := false; wrap_y := false |};
  gcolours := Some (2 ^ (h / 2)); glen := ul;
  gextras := [("level", TSized OneHot (levels h)); ("level_primary", TSized OneHot (levels h))]; gtop := 0 |}.

(** The members level and level_primary of a tile; theorem C79_variables relates
    them to [instantiate]. *)
Definition level (g : grid) (k : nat) (p : Z * Z) : list lit := fresh (extras_base g p) k.
Definition level_primary (g : grid) (k : nat) (p : Z * Z) : list lit := fresh (extras_base g p + Z.of_nat k) k.

(** belt_balancer_net_free_power_of_2.py 27-34: one tile. *)
Definition level_clauses (g : grid) (k : nat) (p : Z * Z) : option cnf :=
  let t := tile_at g p in
  let* same := set_numbers_equal (level g k p) (level_primary g k p) false in
  Some (implies [is_splitter t] [inputs t; outputs t] ++
        implies [is_splitter_head t] (quadratic_one (level g k p)) ++
        implies [is_splitter t; - is_splitter_head t] (quadratic_one (level g k p)) ++
        implies [- is_splitter t] (set_all_false (level g k p)) ++
        implies [is_splitter t] same ++
        implies [- is_splitter t] (set_all_false (level_primary g k p)))%list.

(** belt_balancer_net_free_power_of_2.py 40-41: generated clauses under a
    condition. *)
Definition guarded (pre : list lit) (f : gen) : gen := fun top =>
  let* (cs, top1) := f top in Some (implies pre cs, top1).

(** belt_balancer_net_free_power_of_2.py 60-72: the bits of the four tiles. *)
Definition join_bits (pre : list lit) (in0 in1 out0 out1 : list lit) : cnf :=
  flat_map (fun x =>
    let '(a, b, (c, d)) := x in
    implies pre [[- a; - b]; [- a; c]; [- a; d]; [- b; c]; [- b; d]; [a; b; - c]; [a; b; - d]])
    (combine (combine in0 in1) (combine out0 out1)).

(** belt_balancer_net_free_power_of_2.py 43-74: a splitter in one direction. *)
Definition join_at (g : grid) (k : nat) (p : Z * Z) (d : dir) : option cnf :=
  let pre := [is_splitter_head (tile_at g p); input_dir (tile_at g p) d] in
  match block_of g p d with
  | None => Some [invert_components pre]
  | Some (p10, p01, p11) =>
      let* same := set_numbers_equal (level g k p) (level g k p01) false in
      Some (join_bits pre (colour (tile_at g p)) (colour (tile_at g p01)) (colour (tile_at g p10)) (colour (tile_at g p11)) ++
            implies pre same)%list
  end.

(** belt_balancer_net_free_power_of_2.py 38-74: one tile. *)
Definition splitter_gen (E : card_encoder) (g : grid) (k : nat) (p : Z * Z) : gen :=
  seq_gen (map (fun il => guarded [snd il] (library_equals E (colour (tile_at g p)) (2 ^ Z.of_nat (fst il)))) (indexed (level g k p)) ++
           [pure (oflat (join_at g k p) directions)])%list.

(** belt_balancer_net_free_power_of_2.py 76-81. *)
Definition first_column (g : grid) (y : Z) : option cnf :=
  let* t := set_tile g 0 y (Belt RIGHT RIGHT) in
  let* c := set_colour g 0 y (2 ^ (y / 2)) in Some (t ++ c)%list.
Definition last_column (g : grid) (y : Z) : option cnf := set_tile g (width (geo g) - 1) y (Belt RIGHT RIGHT).
(** belt_balancer_net_free_power_of_2.py 83-87: [y] counts the pairs of rows. *)
Definition differing_pair (g : grid) (y : Z) : option cnf :=
  let x := width (geo g) - 1 in
  if negb (in_grid g x (2 * y) && in_grid g x (2 * y + 1)) then None else
  Some (flat_map (fun ab => literals_different (fst ab) (snd ab))
    (combine (colour (tile_at g (x, 2 * y))) (colour (tile_at g (x, 2 * y + 1))))).

(** belt_balancer_net_free_power_of_2.py 89-91: row by row, as the generator of
    the code does. *)
Definition checkerboard (g : grid) : list (Z * Z) :=
  filter (fun p => (fst p + snd p) mod 2 =? 1)
    (flat_map (fun y => map (fun x => (x, y)) (range (width (geo g)))) (range (height (geo g)))).
Definition nth_primary (g : grid) (k i : nat) (p : Z * Z) : lit := nth i (level_primary g k p) 0.

(** belt_balancer_net_free_power_of_2.py 14-93: create_balancer. *)
Definition create_pow2 (E : card_encoder) (w h : Z) (ul : option Z) : option (grid * cnf * Z) :=
  if negb (((0 <? w) && (0 <? h)) && is_power_of_two h) then None else
  let g := pow2_grid w h ul in
  let k := levels h in
  let* init := init_clauses g in
  let* (cs, top) := seq_gen
    ([pure (Some (block_underground_through_edges g (EBool true)));
      pure (Some (prevent_bad_undergrounding g));
      pure (prevent_bad_colouring g);
      pure (oflat (level_clauses g k) (iterate_tiles (geo g)))] ++
     map (splitter_gen E g k) (cells w h) ++
     [pure (oflat (first_column g) (range h));
      pure (oflat (last_column g) (range h));
      pure (oflat (differing_pair g) (range ((h + 1) / 2)))] ++
     map (fun i => library_equals E (map (nth_primary g k i) (checkerboard g)) (h / 2)) (seq 0 k))%list (grid_top g) in
  Some (g, (init ++ cs)%list, top).

(** belt_balancer_net_free_power_of_2.py 111-119: the clauses of main before the
    partial solution is added. *)
Definition power_of_two (E : card_encoder) (w h : Z) (ul : option Z) : option (grid * cnf * Z) :=
  let* (g, created, top) := create_pow2 E w h ul in
  let* (cs, top1) := seq_gen
    [pure (Some (block_belts_through_edges g (EPair false true)));
     pure (Some (prevent_intersection g));
     pure (enforce_maximum_underground_length g);
     pure (expand_underground g 1 0 (Some (width (geo g) - 2)) None);
     pure (Some (apply_generic_optimisations g))] top in
  Some (g, (created ++ cs)%list, top1).
