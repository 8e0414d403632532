(** Model of belt_balancer.py: the constraints of a belt balancer. *)
From Coq Require Import ZArith List Bool String.
From Verif Require Import Spec_Cnf Spec_Tile M_Json M_Tile M_Util M_Card M_Network M_Template M_Grid M_Oracle.
Import ListNotations.
Local Open Scope string_scope.
Open Scope Z_scope.

(** Code that adds clauses and may allocate variables from grid.pool: from the
    top variable of the pool to the clauses added and the new top. *)
Definition gen := Z -> option (cnf * Z).
Definition pure (o : option cnf) : gen := fun top => let* cs := o in Some (cs, top).
Fixpoint seq_gen (gs : list gen) : gen :=
  match gs with
  | [] => fun top => Some ([], top)
  | f :: r => fun top =>
      let* (cs, top1) := f top in
      let* (cs', top2) := seq_gen r top1 in Some ((cs ++ cs')%list, top2)
  end.

(** The Counter returned by deduplicate_network: distinct splitters with their
    multiplicities.  [elements] is Counter.elements. *)
Definition counter := list (splitter * Z).
Definition elements (net : counter) : network := flat_map (fun e => repeat (fst e) (Z.to_nat (snd e))) net.

(** for x in range(grid.width): for y in range(grid.height) *)
Definition cells (w h : Z) : list (Z * Z) := flat_map (fun x => map (fun y => (x, y)) (range h)) (range w).

(** belt_balancer.py 127-131: all_colours. *)
Definition splitter_colours (n : splitter) : list M_Network.colour := (side_list (fst n) ++ side_list (snd n))%list.
Definition all_colours (net : counter) : list Z := set_of (present (flat_map (fun e => splitter_colours (fst e)) net)).
(** max(all_colours); an empty set raises. *)
Definition list_max (l : list Z) : option Z :=
  match l with [] => None | x :: r => Some (fold_left Z.max r x) end.

(** belt_balancer.py 133: the grid. *)
Definition balancer_grid (net : counter) (w h : Z) (ul : option Z) (top_colour : Z) : grid := {|
  geo := {| width := w; height := h; wrap_x := false; wrap_y := false |};
  gcolours := Some (top_colour + 1); glen := ul;
  gextras := [("node", TSized OneHot (List.length net))]; gtop := 0 |}.
(** tile.node[i]: the only extra. *)
Definition node (g : grid) (p : Z * Z) (i : nat) : lit := extras_base g p + 1 + Z.of_nat i.
Definition nodes (g : grid) (n : nat) (p : Z * Z) : list lit := map (node g p) (seq 0 n).

Definition missing (c : M_Network.colour) : bool := match c with None => true | Some _ => false end.
Definition any_missing (s : side) : bool := missing (fst s) || missing (snd s).

(** belt_balancer.py 200-211 and 213-225: one side of a splitter.  [la], [lb]
    are the two direction literals, [ca], [cb] the colours next to them. *)
Definition side_clauses (pre : list lit) (s : side) (la lb : lit) (ca cb : list lit) : option cnf :=
  match s with
  | (Some a, Some b) =>
      let* n := set_numbers a b ca cb in
      Some (implies pre [[la]; [lb]] ++ implies pre n)%list
  | (Some c, None) | (None, Some c) =>
      let* na := set_number c ca in
      let* nb := set_number c cb in
      Some (implies pre (literals_different la lb) ++ implies (pre ++ [la]) na ++ implies (pre ++ [lb]) nb)%list
  | (None, None) => None (* 205, 218 *)
  end.

(** belt_balancer.py 179-225: splitter [i] at [p] in direction [d]. *)
Definition node_direction (g : grid) (i : nat) (n : splitter) (p : Z * Z) (d : dir) : option cnf :=
  let t00 := tile_at g p in
  if any_missing (fst n) && any_missing (snd n) then None else (* 187 *)
  let pre := [node g p i; if any_missing (fst n) then output_dir t00 d else input_dir t00 d] in
  match get_tile_instance_offset (geo g) (fst p) (snd p) (dx d) (dy d),
        get_tile_instance_offset (geo g) (fst p) (snd p) (dx (next d)) (dy (next d)),
        get_tile_instance_offset (geo g) (fst p) (snd p) (dx d + dx (next d)) (dy d + dy (next d)) with
  | Some p10, Some p01, Some p11 =>
      let t10 := tile_at g p10 in let t01 := tile_at g p01 in let t11 := tile_at g p11 in
      let* i_cs := side_clauses pre (fst n) (input_dir t00 d) (input_dir t01 d) (colour t00) (colour t01) in
      let* o_cs := side_clauses pre (snd n) (output_dir t00 d) (output_dir t01 d) (colour t10) (colour t11) in
      Some (i_cs ++ o_cs)%list
  | _, _, _ => Some [invert_components pre] (* 196-198 *)
  end.

(** belt_balancer.py 168-225: splitter [i] at [p]. *)
Definition node_at (g : grid) (ic oc : Z) (i : nat) (n : splitter) (p : Z * Z) : option cnf :=
  let t00 := tile_at g p in
  let* ci := set_number ic (colour t00) in
  let* co := set_number oc (colour t00) in
  if any_missing (fst n) && any_missing (snd n) then None else (* 174 *)
  let* cs := oflat (node_direction g i n p) directions in
  Some (implies [is_input t00] ci ++ implies [is_output t00] co ++
        [ - node g p i :: (if any_missing (fst n) then outputs t00 else inputs t00) ] ++ cs)%list.

(** belt_balancer.py 165-225: splitter [i]. *)
Definition count_missing (n : splitter) : nat := List.length (filter missing (splitter_colours n)).
Definition node_clauses (g : grid) (ic oc : Z) (i : nat) (n : splitter) : option cnf :=
  if negb (Nat.leb (count_missing n) 1) then None else (* 166 *)
  oflat (node_at g ic oc i n) (cells (width (geo g)) (height (geo g))).

(** enumerate(network) *)
Definition indexed {A} (l : list A) : list (nat * A) := combine (seq 0 (List.length l)) l.

(** belt_balancer.py 134-225: the clauses after the constructor of the grid. *)
Definition balancer_clauses (E : card_encoder) (g : grid) (net : counter) (top_colour : Z) : gen := fun top =>
  let cs := cells (width (geo g)) (height (geo g)) in
  let* (before, top1) := seq_gen
    ([pure (oflat (fun c => if mem c (all_colours net) then Some [] else prevent_colour g c) (range (top_colour + 1)));
      pure (Some (block_underground_through_edges g (EBool true)));
      pure (Some (prevent_bad_undergrounding g));
      pure (prevent_bad_colouring g);
      library_equals E (map (fun p => is_splitter (tile_at g p)) (filter (fun p => (fst p + snd p) mod 2 =? 1) cs))
        (fold_left Z.add (map snd net) 0)] ++
     map (fun ie => library_equals E (map (fun p => node g p (fst ie)) cs) (snd (snd ie))) (indexed net) ++
     [pure (Some (flat_map (fun p => quadratic_one (- is_splitter_head (tile_at g p) :: nodes g (List.length net) p)) cs))])%list top in
  let* ((ic, n), (oc, m)) := get_input_output_colours (elements net) in
  let* (after, top2) := seq_gen
    ([library_equals E (map (fun p => is_input (tile_at g p)) cs) n;
      library_equals E (map (fun p => is_output (tile_at g p)) cs) m] ++
     [pure (oflat (fun ie => node_clauses g ic oc (fst ie) (fst (snd ie))) (indexed net))])%list top1 in
  Some ((before ++ after)%list, top2).

(** belt_balancer.py 124-226: create_balancer.  The result is the grid, all its
    clauses and the top variable of its pool. *)
Definition grid_top (g : grid) : Z := gtop g + width (geo g) * height (geo g) * tile_size g.
Definition create_balancer (E : card_encoder) (net : counter) (w h : Z) (ul : option Z) : option (grid * cnf * Z) :=
  if negb ((0 <? w) && (0 <? h)) then None else
  let* top_colour := list_max (all_colours net) in
  let g := balancer_grid net w h ul top_colour in
  let* init := init_clauses g in
  let* (cs, top) := balancer_clauses E g net top_colour (grid_top g) in
  Some (g, (init ++ cs)%list, top).

(** belt_balancer.py 45-64 and 67-86: setup_balancer_input and
    setup_balancer_output; [side] is input_direction or output_direction.
    Returned besides the clauses: the offset literals and the new top. *)
Definition block_consequences (is_output rest_empty : bool) (ts : list tvars) (d : dir) (count : Z) (di : nat) : cnf :=
  flat_map (fun it =>
    let t := snd it in
    let l := if is_output then output_dir t d else input_dir t d in
    if (Nat.leb di (fst it)) && (Z.of_nat (fst it) <? Z.of_nat di + count) then [[l]; [is_belt t]]
    else if rest_empty then set_all_false (all_direction t)
    else if is_output then [[- l]] else [[- l]; [is_belt t]]) (indexed ts).
Definition setup_balancer_end (is_output rest_empty : bool) (ts : list tvars) (d : dir) (count top : Z) : option (cnf * list lit * Z) :=
  if negb (count <=? len ts) then None else
  let offsets := fresh top (Z.to_nat (len ts - count)) in
  Some (match offsets with
        | [] => flat_map (fun t => if is_output then [[output_dir t d]; [is_belt t]] else [[input_dir t d]]) ts
        | _ => (quadratic_one offsets ++
                flat_map (fun dl => implies [snd dl] (block_consequences is_output rest_empty ts d count (fst dl))) (indexed offsets))%list
        end, offsets, top + len offsets).
Definition setup_balancer_input := setup_balancer_end false.
Definition setup_balancer_output := setup_balancer_end true.

Definition column (g : grid) (x : Z) : list tvars := map (fun y => tile_at g (x, y)) (range (height (geo g))).
Definition row (g : grid) (y : Z) : list tvars := map (fun x => tile_at g (x, y)) (range (width (geo g))).

(** l[i:j] for 0 <= i *)
Definition slice {A} (l : list A) (i j : Z) : list A := firstn (Z.to_nat (j - i)) (skipn (Z.to_nat i) l).

(** belt_balancer.py 98-104 *)
Definition align_clauses (n m : Z) (starts ends : list lit) : cnf :=
  if m <=? n
  then flat_map (fun il => implies [snd il] [slice ends (Z.of_nat (fst il)) (Z.of_nat (fst il) + 1 + n - m)]) (indexed starts)
  else flat_map (fun il => implies [snd il] [slice starts (Z.of_nat (fst il)) (Z.of_nat (fst il) + 1 + m - n)]) (indexed ends).

(** belt_balancer.py 89-104 *)
Definition setup_balancer_ends (g : grid) (net : counter) (aligned use_ends : bool) : gen := fun top =>
  let* ((_, n), (_, m)) := get_input_output_colours (elements net) in
  let* (cs1, starts, top1) := setup_balancer_input (negb use_ends) (column g 0) RIGHT n top in
  let* (cs2, ends, top2) := setup_balancer_output (negb use_ends) (column g (width (geo g) - 1)) RIGHT m top1 in
  Some ((cs1 ++ cs2 ++ if aligned then align_clauses n m starts ends else [])%list, top2).

(** belt_balancer.py 107-113 *)
Definition setup_balancer_ends_90 (g : grid) (net : counter) (use_ends : bool) : gen := fun top =>
  let* ((_, n), (_, m)) := get_input_output_colours (elements net) in
  let* (cs1, _, top1) := setup_balancer_input (negb use_ends) (column g 0) RIGHT n top in
  let* (cs2, _, top2) := setup_balancer_output (negb use_ends) (row g (height (geo g) - 1)) DOWN m top1 in
  Some ((cs1 ++ cs2)%list, top2).

(** belt_balancer.py 116-121 *)
Definition setup_balancer_ends_180 (g : grid) (net : counter) : gen := fun top =>
  let* ((_, n), (_, m)) := get_input_output_colours (elements net) in
  let* (cs1, _, top1) := setup_balancer_input false (column g 0) RIGHT n top in
  let* (cs2, _, top2) := setup_balancer_output false (column g 0) LEFT m top1 in
  Some ((cs1 ++ cs2)%list, top2).

(** belt_balancer.py 19-42: setup_balancer_ends_with_offsets (there the network
    is a list). *)
Definition set_tiles (g : grid) (x lo hi : Z) (t : tile) : option cnf :=
  oflat (fun y => set_tile g x (lo + y) t) (range (hi - lo)).
Definition set_colours (g : grid) (x lo hi c : Z) : option cnf :=
  oflat (fun y => set_colour g x (lo + y) c) (range (hi - lo)).
Definition setup_balancer_ends_with_offsets (g : grid) (net : network) (start_offset end_offset : Z) : option cnf :=
  let* ((ic, n), (oc, m)) := get_input_output_colours net in
  let w := width (geo g) in let h := height (geo g) in
  if negb ((start_offset + n <=? h) && (end_offset + m <=? h)) then None else
  let* a1 := set_tiles g 0 0 start_offset Empty in
  let* a2 := set_tiles g 0 start_offset (start_offset + n) (Belt RIGHT RIGHT) in
  let* a3 := set_colours g (w - 1) start_offset (start_offset + n) ic in (* 29 *)
  let* a4 := set_tiles g 0 (start_offset + n) h Empty in
  let* b1 := set_tiles g (w - 1) 0 end_offset Empty in
  let* b2 := set_tiles g (w - 1) end_offset (end_offset + m) (Belt RIGHT RIGHT) in
  let* b3 := set_colours g (w - 1) end_offset (end_offset + m) oc in
  let* b4 := set_tiles g (w - 1) (end_offset + m) h Empty in
  Some (a1 ++ a2 ++ a3 ++ a4 ++ b1 ++ b2 ++ b3 ++ b4)%list.

(** belt_balancer.py 275-284: prevent_double_edge_belts. *)
Definition double_edge_clause (g : grid) (x y : Z) : option cnf :=
  let a := tile_at g (x, y) in let b := tile_at g (x, y + 1) in
  if in_grid g x y && in_grid g x (y + 1)
  then Some [[- input_dir a RIGHT; - output_dir a RIGHT; is_splitter a; - input_dir b RIGHT; - output_dir b RIGHT; is_splitter b]]
  else None.
Definition prevent_double_edge_belts (g : grid) : option cnf :=
  oflat (fun x => oflat (double_edge_clause g x) (range (height (geo g) - 1))) [1; Z.max (width (geo g) - 2) 1].

(** belt_balancer.py 229-272: enforce_edge_splitters.  [edge] is one of the two
    halves of the function: the column, and the splitters bound to it. *)
Definition is_colour (c : Z) (x : M_Network.colour) : bool := match x with Some y => y =? c | None => false end.
Definition both (c : Z) (s : side) : bool := is_colour c (fst s) && is_colour c (snd s).
Definition recirculate (c : Z) (l : list M_Network.colour) : Z := Z.of_nat (List.length (filter (is_colour c) l)).
Definition edge_splitters (E : card_encoder) (g : grid) (x : Z) (bound : list (nat * (splitter * Z))) (rec : Z) : gen :=
  let h := height (geo g) in
  let guard (f : gen) := if in_grid g x 0 then f else pure None in
  if rec =? 0 then
    match bound with
    | [] => pure (Some [])
    | _ => guard (seq_gen (flat_map (fun ie =>
        [ library_equals E (map (fun y => node g (x, y) (fst ie)) (range h)) (snd (snd ie));
          pure (Some (flat_map (fun y => let t := tile_at g (x, y) in
            implies [node g (x, y) (fst ie)] [[input_dir t RIGHT; output_dir t RIGHT]]) (range h))) ]) bound))
    end
  else
    let least := fold_left Z.add (map (fun ie => snd (snd ie)) bound) 0 - rec in
    if 0 <? least
    then guard (library_atleast E (flat_map (fun y => map (fun ie => node g (x, y) (fst ie)) bound) (range h)) least)
    else pure (Some []).
Definition enforce_edge_splitters (E : card_encoder) (g : grid) (net : counter) : gen := fun top =>
  let* ((ic, _), (oc, _)) := get_input_output_colours (elements net) in
  let rec_out := recirculate oc (input_slots (elements net)) in
  let rec_in := recirculate ic (output_slots (elements net)) in
  seq_gen [ edge_splitters E g 1 (filter (fun ie => both ic (fst (fst (snd ie)))) (indexed net)) rec_in;
            edge_splitters E g (width (geo g) - 2) (filter (fun ie => both oc (snd (fst (snd ie)))) (indexed net)) rec_out ] top.
