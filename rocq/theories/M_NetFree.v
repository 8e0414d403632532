(** Model of belt_balancer_net_free.py: belt balancers found without a network
    of splitters, by following the share of every input. *)
From Coq Require Import ZArith List Bool String.
From Verif Require Import Spec_Cnf Spec_Tile M_Json M_Tile M_Util M_Card M_Network M_Template M_Grid M_Oracle M_Balancer M_Optimise.
Import ListNotations.
Local Open Scope string_scope.
Open Scope Z_scope.

(** belt_balancer_net_free.py 16-22: lcm; without arguments it raises. *)
Fixpoint lcm (args : list Z) : option Z :=
  match args with
  | [] => None
  | [x] => Some x
  | first :: rest => let* rest_lcm := lcm rest in Some ((first * rest_lcm) / Z.gcd first rest_lcm)
  end.
(** belt_balancer_net_free.py 25-26: next_power_of_two. *)
Definition next_power_of_two (x : Z) : Z := Z.shiftl 1 (bit_length (Z.max (x - 1) 0)).

(** template.py 154-158, 184-185: the variables of the component [c] of an array
    of numbers of [bits] bits whose variables start after [b]; theorem
    C57_variables relates this to [instantiate]. *)
Definition component (b : Z) (bits c : nat) : list lit := fresh (b + Z.of_nat c * Z.of_nat bits) bits.
(** flatten of such an array of [k] components. *)
Definition components (b : Z) (bits k : nat) : list lit := flat_map (component b bits) (seq 0 k).

(** A group of flow variables of a tile: [k] numbers of [bits] bits, their
    differences, their carries of [cbits] bits, and the numbers in the tunnels;
    [off] variables of the extras lie before it. *)
Record flows := { fl_off : nat; fl_count : nat; fl_bits : nat; fl_cbits : nat }.
Section Flows.
  Variable g : grid.
  Variable f : flows.
  Definition flow_base (p : Z * Z) : Z := extras_base g p + Z.of_nat (fl_off f).
  Definition size_of : Z := Z.of_nat (fl_count f * fl_bits f).
  Definition carry_size : Z := Z.of_nat (fl_count f * fl_cbits f).
  Definition flow (p : Z * Z) (c : nat) : list lit := component (flow_base p) (fl_bits f) c.
  Definition all_flow (p : Z * Z) : list lit := components (flow_base p) (fl_bits f) (fl_count f).
  Definition flow_diff (p : Z * Z) : list lit := components (flow_base p + size_of) (fl_bits f) (fl_count f).
  Definition flow_carry (p : Z * Z) (c : nat) : list lit := component (flow_base p + 2 * size_of) (fl_cbits f) c.
  Definition flow_ux (p : Z * Z) : list lit := components (flow_base p + 2 * size_of + carry_size) (fl_bits f) (fl_count f).
  Definition flow_uy (p : Z * Z) : list lit := components (flow_base p + 2 * size_of + carry_size + size_of) (fl_bits f) (fl_count f).
End Flows.
(** The five members of a group, belt_balancer_net_free.py 42-48 and 135-150. *)
Definition flow_fields (prefix : string) (names : list string) (f : flows) : list (string * template) :=
  combine (map (append prefix) names)
    [TArray (TSized (Number false) (fl_bits f)) [fl_count f];
     TArray TBool [fl_count f; fl_bits f];
     TArray TBool [fl_count f; fl_cbits f];
     TArray (TSized (Number false) (fl_bits f)) [fl_count f];
     TArray (TSized (Number false) (fl_bits f)) [fl_count f]].

(** The four tiles of belt_balancer_net_free.py 73-78 and 173-178. *)
Definition block_of (g : grid) (p : Z * Z) (d : dir) : option ((Z * Z) * (Z * Z) * (Z * Z)) :=
  match get_tile_instance_offset (geo g) (fst p) (snd p) (dx d) (dy d),
        get_tile_instance_offset (geo g) (fst p) (snd p) (dx (next d)) (dy (next d)),
        get_tile_instance_offset (geo g) (fst p) (snd p) (dx d + dx (next d)) (dy d + dy (next d)) with
  | Some p10, Some p01, Some p11 => Some (p10, p01, p11)
  | _, _, _ => None
  end.

(** belt_balancer_net_free.py 81-85, 222-226, 234-238: two flows are halved. *)
Definition halve (in0 in1 out0 out1 carry : list lit) : option cnf :=
  match in0, in1 with
  | a :: r, b :: s =>
      let* sum := add_numbers r s out0 carry (Some a) false in
      let* same := set_numbers_equal out0 out1 false in
      Some (sum ++ literals_same a b ++ same)%list
  | _, _ => None
  end.
(** belt_balancer_net_free.py 87-93, 240-248: the flows of the two inputs differ;
    [zip] stops at the shortest list. *)
Definition differ (pre bits0 bits1 diffs : list lit) : cnf :=
  (flat_map (fun x => implies pre [[fst (fst x); snd (fst x); - snd x]; [- fst (fst x); - snd (fst x); - snd x]])
     (combine (combine bits0 bits1) diffs) ++
   implies pre [diffs])%list.

(** range over the components of a group. *)
Definition for_components (f : flows) (cs : nat -> option cnf) : option cnf := oflat cs (seq 0 (fl_count f)).

(** belt_balancer_net_free.py 63-93: a splitter of an n to n balancer. *)
Definition splitter_flow (g : grid) (f : flows) (p : Z * Z) (d : dir) : option cnf :=
  match block_of g p d with
  | None => Some []
  | Some (p10, p01, p11) =>
      let pre := [is_splitter_head (tile_at g p); input_dir (tile_at g p) d] in
      let* cs := for_components f (fun c =>
        let* h := halve (flow g f p c) (flow g f p01 c) (flow g f p10 c) (flow g f p11 c) (flow_carry g f p c) in
        Some (implies pre h)) in
      Some (cs ++ differ pre (all_flow g f p) (all_flow g f p01) (flow_diff g f p))%list
  end.

(** belt_balancer_net_free.py 95-99, 101-105, 301-316: one tile at the edge;
    [value] gives the number of each component. *)
Definition edge_flow (g : grid) (fs : list (flows * (Z -> nat -> Z))) (x y : Z) : option cnf :=
  let* cs := omap (fun fv => for_components (fst fv) (fun c => set_number (snd fv y c) (flow g (fst fv) (x, y) c))) fs in
  Some ([- is_splitter (tile_at g (x, y))] :: List.concat cs).
Definition source_flow (n full y : Z) (c : nat) : Z := if y mod n =? Z.of_nat c then full else 0.

(** belt_balancer_net_free.py 36-48: the numbers and the template of create_n_to_n_balancer. *)
Definition denominator (size : Z) : Z := next_power_of_two size / Z.gcd (next_power_of_two size) size.
Definition full_flow (size : Z) : Z := size * denominator size.
Definition n_flows (size : Z) : flows :=
  let bits := Z.to_nat (bit_length (full_flow size)) in
  {| fl_off := 0; fl_count := Z.to_nat (size - 1); fl_bits := bits; fl_cbits := bits - 1 |}.
Definition n_to_n_grid (w h : Z) (ul : option Z) (size : Z) : grid := {|
  geo := {| width := w; height := h; wrap_x := false; wrap_y := false |};
  gcolours := None; glen := ul;
  gextras := flow_fields "flow" [""; "_diff"; "_carry"; "_ux"; "_uy"] (n_flows size); gtop := 0 |}.

(** belt_balancer_net_free.py 29-107: create_n_to_n_balancer. *)
Definition create_n_to_n_balancer (w h : Z) (ul : option Z) (size : Z) : option (grid * cnf) :=
  if negb (((0 <? w) && (0 <? h)) && (0 <? size)) then None else
  let g := n_to_n_grid w h ul size in
  let f := n_flows size in
  let* init := init_clauses g in
  let* tiles := oflat (fun p =>
    let t := tile_at g p in
    let* bound := for_components f (fun c => set_maximum (full_flow size) (flow g f p c)) in
    Some (implies [is_splitter t] [inputs t; outputs t] ++ bound)%list) (iterate_tiles (geo g)) in
  let* moved := transport_quantity g (all_flow g f) (flow_ux g f) (flow_uy g f) in
  let* splitters := oflat (fun p => oflat (splitter_flow g f p) directions) (cells w h) in
  let* first := oflat (edge_flow g [(f, source_flow size (full_flow size))] 0) (range h) in
  let* final := oflat (edge_flow g [(f, fun _ _ => denominator size)] (w - 1)) (range h) in
  Some (g, init ++ block_underground_through_edges g (EBool true) ++ prevent_bad_undergrounding g ++
           tiles ++ moved ++ splitters ++ first ++ final)%list.

(** belt_balancer_net_free.py 121-134: the numbers of create_n_to_m_balancer. *)
Definition max_belt_flow (n m : Z) : option Z := lcm [next_power_of_two (Z.min n m); 2; n; m].
Definition forward_input (n m max_flow : Z) : Z := max_flow * Z.min n m / n.
Definition forward_output (n m max_flow : Z) : Z := forward_input n m max_flow / m.
Definition backward_input (n m max_flow : Z) : Z := max_flow * Z.min n m / m.
Definition backward_output (n m max_flow : Z) : Z := backward_input n m max_flow / n.
Definition forward_flows (n max_flow : Z) : flows :=
  let bits := Z.to_nat (bit_length max_flow) in
  {| fl_off := 0; fl_count := Z.to_nat n; fl_bits := bits; fl_cbits := bits |}.
Definition backward_flows (n m max_flow : Z) : flows :=
  let bits := Z.to_nat (bit_length max_flow) in
  {| fl_off := 5 * (Z.to_nat n * bits); fl_count := Z.to_nat m; fl_bits := bits; fl_cbits := bits |}.
Definition n_to_m_grid (w h : Z) (ul : option Z) (n m max_flow : Z) : grid := {|
  geo := {| width := w; height := h; wrap_x := false; wrap_y := false |};
  gcolours := None; glen := ul;
  gextras := [("forward", TComposite (flow_fields "" ["flow"; "diff"; "carry"; "ux"; "uy"] (forward_flows n max_flow)));
              ("backward", TComposite (flow_fields "" ["flow"; "diff"; "carry"; "ux"; "uy"] (backward_flows n m max_flow)))];
  gtop := 0 |}.

(** belt_balancer_net_free.py 258-267, 290-299: one flow is split in two. *)
Definition split_flow (input out0 out1 : list lit) : option cnf :=
  match input with
  | [] => None
  | l :: r =>
      let* e0 := set_numbers_equal r (removelast out0) false in
      let* e1 := set_numbers_equal r (removelast out1) false in
      Some ([[- l]] ++ e0 ++ e1 ++ [[- last out0 0]; [- last out1 0]])%list
  end.

(** belt_balancer_net_free.py 168-299: a splitter of an n to m balancer. *)
Definition partial_splitter_flow (g : grid) (f b : flows) (p p10 p01 p11 : Z * Z) (d : dir) (side : bool) : option cnf :=
  let head := is_splitter_head (tile_at g p) in
  let '(connected, connected_out, unconnected) := if side then (p01, p11, p) else (p, p10, p01) in
  let pre_in := [head; output_dir (tile_at g p) d; input_dir (tile_at g connected) d; - input_dir (tile_at g unconnected) d] in
  let pre_out := [head; input_dir (tile_at g p) d; output_dir (tile_at g connected) d; - output_dir (tile_at g unconnected) d] in
  let* c1 := for_components f (fun c =>
    let* s := split_flow (flow g f connected c) (flow g f p10 c) (flow g f p11 c) in Some (implies pre_in s)) in
  let* c2 := for_components b (fun c =>
    let* s := add_numbers (flow g b p10 c) (flow g b p11 c) (flow g b connected c) (flow_carry g b p c) None false in Some (implies pre_in s)) in
  let* c3 := for_components f (fun c =>
    let* s := add_numbers (flow g f p c) (flow g f p01 c) (flow g f connected_out c) (flow_carry g f p c) None false in Some (implies pre_out s)) in
  let* c4 := for_components b (fun c =>
    let* s := split_flow (flow g b connected_out c) (flow g b p c) (flow g b p01 c) in Some (implies pre_out s)) in
  Some (c1 ++ c2 ++ c3 ++ c4)%list.
Definition n_to_m_splitter (g : grid) (f b : flows) (p : Z * Z) (d : dir) : option cnf :=
  match block_of g p d with
  | None => Some []
  | Some (p10, p01, p11) =>
      let t00 := tile_at g p in let t01 := tile_at g p01 in
      let head := is_splitter_head t00 in
      let pre := [head; input_dir t00 d; input_dir t01 d; output_dir t00 d; output_dir t01 d] in
      let* c1 := for_components f (fun c =>
        let* s := halve (flow g f p c) (flow g f p01 c) (flow g f p10 c) (flow g f p11 c) (flow_carry g f p c) in Some (implies pre s)) in
      let* c2 := for_components b (fun c =>
        let* s := halve (flow g b p10 c) (flow g b p11 c) (flow g b p c) (flow g b p01 c) (flow_carry g b p c) in Some (implies pre s)) in
      let* c3 := partial_splitter_flow g f b p p10 p01 p11 d false in
      let* c4 := partial_splitter_flow g f b p p10 p01 p11 d true in
      Some ([ [- head; - input_dir t00 d; output_dir t00 d; output_dir t01 d];
              [- head; - input_dir t00 d; output_dir t00 d; input_dir t01 d];
              [- head; - output_dir t00 d; input_dir t00 d; input_dir t01 d];
              [- head; - output_dir t00 d; input_dir t00 d; output_dir t01 d] ] ++
            c1 ++ c2 ++
            differ pre (all_flow g f p ++ all_flow g b p) (all_flow g f p01 ++ all_flow g b p01) (flow_diff g f p ++ flow_diff g b p) ++
            c3 ++ c4)%list
  end.

(** belt_balancer_net_free.py 110-318: create_n_to_m_balancer.  The prints to
    stderr are left out. *)
Definition create_n_to_m_balancer (w h : Z) (ul : option Z) (n m : Z) : option (grid * cnf) :=
  if negb (((0 <? w) && (0 <? h)) && ((0 <? n) && (0 <? m))) then None else
  if n =? m then create_n_to_n_balancer w h ul n else
  let* max_flow := max_belt_flow n m in
  let g := n_to_m_grid w h ul n m max_flow in
  let f := forward_flows n max_flow in
  let b := backward_flows n m max_flow in
  let* init := init_clauses g in
  let* tiles := oflat (fun p =>
    let* bf := for_components f (fun c => set_maximum max_flow (flow g f p c)) in
    let* bb := for_components b (fun c => set_maximum max_flow (flow g b p c)) in
    let top_bits x := map (fun c => last (flow g x p c) 0) (seq 0 (fl_count x)) in
    Some (bf ++ bb ++ quadratic_amo (top_bits f) ++ quadratic_amo (top_bits b))%list) (iterate_tiles (geo g)) in
  let* moved_f := transport_quantity g (all_flow g f) (flow_ux g f) (flow_uy g f) in
  let* moved_b := transport_quantity g (all_flow g b) (flow_ux g b) (flow_uy g b) in
  let* splitters := oflat (fun p => oflat (n_to_m_splitter g f b p) directions) (cells w h) in
  let* first := oflat (edge_flow g [(f, source_flow n (forward_input n m max_flow)); (b, fun _ _ => backward_output n m max_flow)] 0) (range h) in
  let* final := oflat (edge_flow g [(f, fun _ _ => forward_output n m max_flow); (b, source_flow m (backward_input n m max_flow))] (w - 1)) (range h) in
  Some (g, init ++ block_underground_through_edges g (EBool true) ++ prevent_bad_undergrounding g ++
           tiles ++ moved_f ++ moved_b ++ splitters ++ first ++ final)%list.

(** belt_balancer_net_free.py 321-362: setup_balancer_ends; one end.  The range
    of offsets is empty when the edge is too short. *)
Definition end_consequences (ts : list tvars) (count : Z) (di : nat) : cnf :=
  flat_map (fun it =>
    let t := snd it in
    if (Nat.leb di (fst it)) && (Z.of_nat (fst it) <? Z.of_nat di + count)
    then [[input_dir t RIGHT]; [output_dir t RIGHT]]
    else set_all_false (all_direction t)) (indexed ts).
Definition setup_end (ts : list tvars) (count top : Z) : cnf * list lit * Z :=
  let offsets := fresh top (Z.to_nat (len ts - count + 1)) in
  ((flat_map (fun dl => implies [snd dl] (end_consequences ts count (fst dl))) (indexed offsets) ++ quadratic_one offsets)%list,
   offsets, top + len offsets).
(** ... and the alignment of belt_balancer_net_free.py 356-362, which is that of
    belt_balancer.py 98-104. *)
Definition setup_free_ends (g : grid) (n m : Z) (aligned : bool) : gen := fun top =>
  let '(cs1, starts, top1) := setup_end (column g 0) n top in
  let '(cs2, ends, top2) := setup_end (column g (width (geo g) - 1)) m top1 in
  Some ((cs1 ++ cs2 ++ if aligned then align_clauses n m starts ends else [])%list, top2).

(** belt_balancer_net_free.py 385-396: the clauses of main before the partial
    solution is added. *)
Definition net_free (w h : Z) (ul : option Z) (n m : Z) (aligned : bool) : option (grid * cnf * Z) :=
  let* (g, created) := create_n_to_m_balancer w h ul n m in
  let* (cs, top) := seq_gen
    [setup_free_ends g n m aligned;
     pure (Some (block_belts_through_edges g (EPair false true)));
     pure (Some (prevent_intersection g));
     pure (enforce_maximum_underground_length g);
     pure (expand_underground g 1 0 (Some (width (geo g) - 2)) None);
     pure (Some (apply_generic_optimisations g));
     pure (prevent_double_edge_belts g)] (grid_top g) in
  Some (g, (created ++ cs)%list, top).
