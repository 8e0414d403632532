(** Model of the rest of network.py: parse_network, the network that a layout
    of belts is.

    The array of tiles has [w] columns and [h] rows; [T (x, y)] is tiles[x, y]
    after the transposition of line 505.  An exception is None. *)
From Coq Require Import ZArith List Bool.
From Verif Require Import Spec_Tile Spec_Layout M_Json M_Dict M_Tile M_Network.
Import ListNotations.
Open Scope Z_scope.

(** network.py 507: colour_mapping: an array of colours, None at first. *)
Definition mapping := (Z * Z) -> option Z.
Definition no_colours : mapping := fun _ => None.
Definition pos_eqb (p q : Z * Z) : bool := (fst p =? fst q) && (snd p =? snd q).
Definition set_colour (cm : mapping) (p : Z * Z) (c : Z) : mapping := fun q => if pos_eqb q p then Some c else cm q.

Section Parse.
  Variables (w h : Z) (T : Z * Z -> tile).

  (** network.py 531, 552 and 564: the test of the bounds; [low] is the least row (552 has 1). *)
  Definition in_shape (low : Z) (p : Z * Z) : bool :=
    ((0 <=? fst p) && (fst p <? w)) && ((low <=? snd p) && (snd p <? h)).
  (** network.py 534, 536, 555, 557: equality of undergrounds (a dataclass, tile.py 100-105). *)
  Definition is_underground (t : tile) (d : dir) (e : bool) : bool :=
    match t with Underground d' e' => dir_eqb d' d && Bool.eqb e' e | _ => false end.

  (** network.py 528-539 and 549-559: walking from one end of a tunnel of
      direction [d] by steps [(vx, vy)] to the other end, whose is_input is [e].
      [fuel] bounds the number of steps (lemma [walk_fuel]: [w + h] suffice). *)
  Fixpoint walk (fuel : nat) (low : Z) (d : dir) (e : bool) (vx vy : Z) (p : Z * Z) : option (Z * Z) :=
    match fuel with
    | O => None
    | S f =>
      let q := (fst p + vx, snd p + vy) in
      if in_shape low q then
        if is_underground (T q) d (negb e) then None
        else if is_underground (T q) d e then Some q
        else walk f low d e vx vy q
      else None
    end.
  Definition walk_steps : nat := Z.to_nat (w + h).

  (** network.py 511-561: next_tile. *)
  Definition next_tile (p : Z * Z) (forward : bool) : option (Z * Z) :=
    match T p with
    | Belt i o => (* 515-522 *)
        let d := if forward then o else reverse i in
        Some (fst p + dx d, snd p + dy d)
    | Underground d true => (* 526-542 *)
        if forward then walk walk_steps 0 d false (dx d) (dy d) p
        else Some (fst p - dx d, snd p - dy d)
    | Underground d false => (* 543-559 *)
        if forward then Some (fst p + dx d, snd p + dy d)
        else walk walk_steps 1 d true (- dx d) (- dy d) p
    | _ => None (* 523-524, 560-561 *)
    end.

  (** network.py 563-580: trace.  [fuel] bounds the recursion (lemma
      [trace_fuel]: one more than the number of tiles suffices).  Simplification:
      Python's limit on the depth of a recursion is not modelled. *)
  Fixpoint trace (fuel : nat) (cm : mapping) (colour : Z) (p : Z * Z) (forward : bool) : option mapping :=
    match fuel with
    | O => None
    | S f =>
      if in_shape 0 p then
        match T p with
        | Empty | Splitter _ _ => Some cm (* 568-572 *)
        | _ =>
          match cm p with
          | Some c => if c =? colour then Some cm else None (* 574-576 *)
          | None =>
            let cm := set_colour cm p colour in
            let* q := next_tile p forward in
            trace f cm colour q forward
          end
        end
      else Some cm
    end.
  Definition trace_steps : nat := S (Z.to_nat (w * h)).

  (** network.py 582-600: one round of the loop over the tiles. The state is
      colour_mapping, current_colour and splitters. *)
  Definition scan_tile (st : mapping * Z * list (Z * Z)) (p : Z * Z) : option (mapping * Z * list (Z * Z)) :=
    let '(cm, cur, splitters) := st in
    let splitters := match T p with Splitter _ true => (splitters ++ [p])%list | _ => splitters end in
    match cm p with
    | Some _ => Some (cm, cur, splitters)
    | None =>
      match T p with
      | Empty | Filler => Some (set_colour cm p (-1), cur, splitters)
      | Splitter _ _ => Some (cm, cur, splitters)
      | _ =>
        let cm := set_colour cm p cur in
        let* a := next_tile p true in
        let* cm := trace trace_steps cm cur a true in
        let* b := next_tile p false in
        let* cm := trace trace_steps cm cur b false in
        Some (cm, cur + 1, splitters)
      end
    end.
  Fixpoint scan (st : mapping * Z * list (Z * Z)) (ps : list (Z * Z)) : option (mapping * Z * list (Z * Z)) :=
    match ps with [] => Some st | p :: ps => let* st := scan_tile st p in scan st ps end.
  (** network.py 582-583: the order: column by column. *)
  Definition all_tiles : list (Z * Z) :=
    flat_map (fun x => map (fun y => (Z.of_nat x, Z.of_nat y)) (seq 0 (Z.to_nat h))) (seq 0 (Z.to_nat w)).

  (** network.py 610-646: the colour of one side of one half of the splitter of
      direction [d] whose half is at [q] = (x, y) + offset_b. *)
  Definition slot (edge : bool) (d : dir) (st : mapping * Z) (is_output : bool) (q : Z * Z) : option ((mapping * Z) * colour) :=
    let '(cm, cur) := st in
    let p := if is_output then (fst q + dx d, snd q + dy d) else (fst q - dx d, snd q - dy d) in
    if in_shape 0 p then
      match T p with
      | Splitter d' _ => (* 627-640 *)
          if dir_eqb d' d then
            let colour_pos := if is_output then p else q in
            match cm colour_pos with
            | Some c => Some ((cm, cur), Some c)
            | None => Some ((set_colour cm colour_pos cur, cur + 1), Some cur)
            end
          else Some ((cm, cur), None)
      | Belt _ _ | Underground _ _ => (* 641-645 *)
          let side := if is_output then input_direction (T p) else output_direction (T p) in
          Some ((cm, cur), match side with Some s => if dir_eqb d s then cm p else None | None => None end)
      | _ => None (* no attribute input_direction *)
      end
    else if edge then Some ((cm, cur + 1), Some cur) else Some ((cm, cur), None). (* 614-620 *)

  (** network.py 602-648: the nodes, for the splitters in the order of the set. *)
  Definition read_node (edge : bool) (st : mapping * Z) (p : Z * Z) : option ((mapping * Z) * splitter) :=
    match T p with
    | Splitter d true =>
        let q := (fst p + dx (next d), snd p + dy (next d)) in
        let* (st, a) := slot edge d st false p in
        let* (st, b) := slot edge d st false q in
        let* (st, c) := slot edge d st true p in
        let* (st, e) := slot edge d st true q in
        Some (st, ((a, b), (c, e)))
    | _ => None (* 605 *)
    end.
  Fixpoint read_nodes (edge : bool) (st : mapping * Z) (ps : list (Z * Z)) : option network :=
    match ps with
    | [] => Some []
    | p :: ps => let* (st, nd) := read_node edge st p in let* net := read_nodes edge st ps in Some (nd :: net)
    end.

  (** network.py 650-662: the mapping of the colours; None is no key. *)
  Fixpoint map_outputs (i : Z) (net : network) (m : list (Z * Z)) : list (Z * Z) * Z :=
    match net with
    | [] => (m, i)
    | nd :: net => map_outputs (i + 1) net (fold_left (fun m c => dset Z.eqb c i m) (present (side_list (snd nd))) m)
    end.
  Definition name_map (net : network) : list (Z * Z) :=
    let (ins, outs) := get_exterior_colours net in
    let m := fold_left (fun m c => dset Z.eqb c 0 m) ins [] in
    let (m, last) := map_outputs 1 net m in
    fold_left (fun m c => dset Z.eqb c last m) outs m.

  (** network.py 504-665: parse_network. [order] is the order in which Python
      goes through the set of splitters. *)
  Definition parse_network (order : list (Z * Z) -> list (Z * Z)) (edge : bool) : option network :=
    let* (cm, cur, splitters) := scan (no_colours, 0, []) all_tiles in
    let* net := read_nodes edge (cm, cur) (order splitters) in
    Some (remap_colours net (name_map net)).
End Parse.

(** network.py 732-739: the parse command on the tiles; what it writes. *)
Definition parse_command (w h : Z) (T : Z * Z -> tile) (order : list (Z * Z) -> list (Z * Z)) (sets : list Z -> list Z) (edge : bool) : option network :=
  let* net := parse_network w h T order edge in
  tidy_network sets net.
