(** Model of network.py: the balancer networks.

    A network is a list of splitters; a splitter is a pair of a pair of input
    colours and a pair of output colours, and a missing belt is None
    (network.py 22-70 and 332-360).  Python sets are iterated in an order that
    the language does not fix; every function that iterates over a set takes
    the order as an argument [order], of which the theorems only assume that it
    permutes its argument. *)
From Coq Require Import String Ascii ZArith List Bool DecimalString DecimalZ.
From Verif Require Import M_Json M_Dict M_Solve.
Import ListNotations.
Local Open Scope string_scope.
Open Scope Z_scope.

Definition colour := option Z.
Definition side := (colour * colour)%type.
Definition splitter := (side * side)%type.
Definition network := list splitter.

Definition colour_eqb (a b : colour) : bool :=
  match a, b with Some x, Some y => x =? y | None, None => true | _, _ => false end.
Definition side_eqb (a b : side) : bool := colour_eqb (fst a) (fst b) && colour_eqb (snd a) (snd b).
Definition splitter_eqb (a b : splitter) : bool := side_eqb (fst a) (fst b) && side_eqb (snd a) (snd b).

Definition side_list (s : side) : list colour := [fst s; snd s].
(** The colours of the inputs / outputs of a network, with repetitions and
    including None. *)
Definition input_slots (net : network) : list colour := flat_map (fun n => side_list (fst n)) net.
Definition output_slots (net : network) : list colour := flat_map (fun n => side_list (snd n)) net.

(** The colours other than None in a list. *)
Definition present (l : list colour) : list Z := flat_map (fun c => match c with Some x => [x] | None => [] end) l.

(** Sets of colours. *)
Definition set_of (l : list Z) : list Z := nodup Z.eq_dec l.
Definition mem (x : Z) (l : list Z) : bool := existsb (Z.eqb x) l.
Definition set_minus (a b : list Z) : list Z := filter (fun x => negb (mem x b)) a.
Definition set_inter (a b : list Z) : list Z := filter (fun x => mem x b) a.
Definition set_union (a b : list Z) : list Z := (a ++ set_minus b a)%list.

(** network.py 124-130: remap_colours.  [None] is never a key (line 125). *)
Definition map_colour (m : list (Z * Z)) (c : colour) : colour :=
  match c with
  | None => None
  | Some x => match dget Z.eqb x m with Some y => Some y | None => Some x end
  end.
Definition map_splitter (f : colour -> colour) (n : splitter) : splitter :=
  ((f (fst (fst n)), f (snd (fst n))), (f (fst (snd n)), f (snd (snd n)))).
Definition remap_colours (net : network) (m : list (Z * Z)) : network :=
  map (map_splitter (map_colour m)) net.

(** network.py 277-301: get_input_output_colours. [None] = AssertionError.
    The dictionary of occurrences keeps the colours in the order in which they
    are first met (lines 278-283); the entry of the colour None is dropped
    (line 285). *)
Definition bump (by_ : Z) (d : list (Z * Z)) (c : colour) : list (Z * Z) :=
  match c with
  | None => d
  | Some x => dset Z.eqb x (match dget Z.eqb x d with Some n => n | None => 0 end + by_) d
  end.
Definition occurrences (net : network) : list (Z * Z) :=
  fold_left (fun d (n : splitter) =>
    fold_left (bump (-1)) (side_list (snd n)) (fold_left (bump 1) (side_list (fst n)) d)) net [].
(** Lines 287-296. *)
Fixpoint scan_occurrences (d : list (Z * Z)) (inp out : option (Z * Z))
  : option (option (Z * Z) * option (Z * Z)) :=
  match d with
  | [] => Some (inp, out)
  | (c, n) :: r =>
      if 0 <? n then match inp with None => scan_occurrences r (Some (c, n)) out | Some _ => None end
      else if n <? 0 then match out with None => scan_occurrences r inp (Some (c, - n)) | Some _ => None end
      else scan_occurrences r inp out
  end.
Definition get_input_output_colours (net : network) : option ((Z * Z) * (Z * Z)) :=
  match scan_occurrences (occurrences net) None None with
  | Some (Some i, Some o) => Some (i, o)
  | _ => None
  end.

(** network.py 22-70: create_benes_network. *)
(** Lines 31-43: the first input belt of the network is replaced. *)
Fixpoint replace_input (inp out : Z) (net : network) : network :=
  match net with
  | [] => []
  | ((a, b), o) :: r =>
      if colour_eqb a (Some inp) then ((Some out, b), o) :: r
      else if colour_eqb b (Some inp) then ((Some out, a), o) :: r
      else ((a, b), o) :: replace_input inp out r
  end.
(** Lines 60-63: two fresh colours for every inner colour. *)
Fixpoint number_inner (i : Z) (cs : list Z) (a b : list (Z * Z)) : Z * list (Z * Z) * list (Z * Z) :=
  match cs with
  | [] => (i, a, b)
  | c :: r => number_inner (i + 2) r (dset Z.eqb c i a) (dset Z.eqb c (i + 1) b)
  end.
Definition double_network (order : list Z -> list Z) (inner_size : Z) (inner : network) : option network :=
  let all := set_of (present (input_slots inner ++ output_slots inner)) in (* 48-53 *)
  let* ((ic, _), (oc, _)) := get_input_output_colours inner in (* 55 *)
  let '(i, a, b) := number_inner 3 (order (set_minus all [ic; oc])) [(ic, 1)] [(ic, 2)] in (* 57-63 *)
  let a := dset Z.eqb oc i a in
  let b := dset Z.eqb oc i b in
  Some (repeat ((Some 0, Some 0), (Some 1, Some 2)) (Z.to_nat inner_size)
        ++ remap_colours inner a ++ remap_colours inner b)%list. (* 67-70 *)

(** [order] may be a different permutation in every call, hence its first
    argument, the size of the call. [fuel] bounds the recursion; [None] is an
    AssertionError or running out of fuel. *)
Fixpoint create_benes (order : Z -> list Z -> list Z) (fuel : nat) (size : Z) : option network :=
  match fuel with
  | O => None
  | S f =>
      if size <? 2 then None (* line 23 *)
      else if size =? 2 then Some [((Some 0, Some 0), (Some 1, Some 1))]
      else if size mod 2 =? 1 then
        let* inner := create_benes order f (size + 1) in
        let* ((ic, _), (oc, _)) := get_input_output_colours inner in
        Some (replace_input ic oc inner)
      else
        let* inner := create_benes order f (size / 2) in
        double_network (order size) (size / 2) inner
  end.
Definition create_benes_network (order : Z -> list Z -> list Z) (size : Z) : option network :=
  create_benes order (Z.to_nat (2 * size)) size.

(** network.py 133-162: fix_colours. The three sets are iterated in unspecified
    orders. *)
Fixpoint number_from (i : Z) (cs : list Z) (d : list (Z * Z)) : list (Z * Z) :=
  match cs with [] => d | c :: r => number_from (i + 1) r (dset Z.eqb c i d) end.
Definition input_set (net : network) : list Z := set_of (present (input_slots net)).
Definition output_set (net : network) : list Z := set_of (present (output_slots net)).
Definition fix_map (order : list Z -> list Z) (net : network) : list (Z * Z) :=
  let ins := input_set net in
  let outs := output_set net in
  let all := set_union ins outs in (* 139 *)
  let remaining := set_inter ins outs in (* 140 *)
  let ins' := set_minus ins outs in (* 141 *)
  let outs' := set_minus outs ins in
  (* zip with a range (144, 147): the shorter one decides *)
  let d := number_from 0 (firstn (length all) (order ins')) [] in
  let first_out := (length ins' + length remaining)%nat in
  let d := number_from (Z.of_nat first_out) (firstn (length all - first_out) (order outs')) d in
  number_from (Z.of_nat (length ins')) (order remaining) d. (* 155-158 *)
Definition fix_colours (order : list Z -> list Z) (net : network) : option network :=
  let all := set_union (input_set net) (output_set net) in
  let m := fix_map order net in
  if Nat.eqb (length m) (length all) then Some (remap_colours net m) else None. (* 160-162 *)

(** network.py 267-274: calculate_total_colours. *)
Definition calculate_total_colours (net : network) : Z :=
  Z.of_nat (length (set_of (present (flat_map (fun n : splitter => (side_list (fst n) ++ side_list (snd n))%list) net)))).

(** network.py 304-315: get_exterior_colours (the two sets). *)
Definition get_exterior_colours (net : network) : list Z * list Z :=
  (set_minus (input_set net) (output_set net), set_minus (output_set net) (input_set net)).

(** network.py 332-360: open_network, on the lines of the file. Simplification:
    only the newline character ends a line. *)
(** str.strip() *)
Fixpoint lstrip (s : string) : string :=
  match s with String c r => if is_space c then lstrip r else s | EmptyString => s end.
Fixpoint rstrip (s : string) : string :=
  match s with
  | EmptyString => EmptyString
  | String c r => match rstrip r with
                  | EmptyString => if is_space c then EmptyString else String c EmptyString
                  | r' => String c r'
                  end
  end.
Definition strip (s : string) : string := rstrip (lstrip s).
(** file.readlines(), every line with its newline character. *)
Definition newline : ascii := ascii_of_nat 10.
Fixpoint readlines (s : string) : list string :=
  match s with
  | EmptyString => []
  | String c r =>
      if Ascii.eqb c newline then String c EmptyString :: readlines r
      else match readlines r with
           | [] => [String c EmptyString]
           | l :: ls => String c l :: ls
           end
  end.
Definition of_number (n : Z) : colour := if n =? -1 then None else Some n.
Fixpoint open_lines (lines : list string) : option network :=
  match lines with
  | [] => Some []
  | line :: rest =>
      let line := strip line in
      match line with
      | EmptyString => open_lines rest (* 342-343 *)
      | String c _ =>
          if Ascii.eqb c "#" then open_lines rest (* 345-346 *)
          else
            let* cs := omap parse_int (split line) in (* 348 *)
            match map of_number cs with
            | [a; b; c; d] => let* net := open_lines rest in Some (((a, b), (c, d)) :: net)
            | _ => None (* 354-355 *)
            end
      end
  end.
Definition open_network (text : string) : option network := open_lines (readlines text).

(** network.py 363-373: save_network, the text written. *)
Definition str_int (n : Z) : string := NilZero.string_of_int (Z.to_int n).
Definition to_number (c : colour) : Z := match c with None => -1 | Some n => n end.
Definition splitter_line_text (n : splitter) : string :=
  let t c := str_int (to_number c) in
  t (fst (fst n)) ++ " " ++ t (snd (fst n)) ++ " " ++ t (fst (snd n)) ++ " " ++ t (snd (snd n)) ++ String newline EmptyString.
Definition save_network (net : network) : string := String.concat "" (map splitter_line_text net).

(** network.py 376-377: flip_network. *)
Definition flip_network (net : network) : network := map (fun n : splitter => (snd n, fst n)) net.

(** network.py 668-672: deduplicate_network; the result is a Counter. *)
(** Sorting a pair; None sorts before every colour (the key -math.inf). *)
Definition colour_le (a b : colour) : bool :=
  match a, b with None, _ => true | Some _, None => false | Some x, Some y => x <=? y end.
Definition sort_side (s : side) : side := if colour_le (fst s) (snd s) then s else (snd s, fst s).
Definition sort_sides (n : splitter) : splitter := (sort_side (fst n), sort_side (snd n)).
Definition count_one (d : list (splitter * Z)) (n : splitter) : list (splitter * Z) :=
  dset splitter_eqb n (match dget splitter_eqb n d with Some k => k | None => 0 end + 1) d.
Definition deduplicate_network (net : network) : list (splitter * Z) :=
  fold_left count_one (map sort_sides net) [].

(** network.py 675-689: tidy_network.  The key for sorting pairs is -1 for None
    (lines 680-681). *)
Definition none_key (c : colour) : Z := match c with None => -1 | Some n => n end.
Definition sort_side_key (s : side) : side := if none_key (fst s) <=? none_key (snd s) then s else (snd s, fst s).
Definition count_in (set : list Z) (s : side) : Z :=
  let one c := match c with Some x => if mem x set then 1 else 0 | None => 0 end in one (fst s) + one (snd s).
Definition tidy_network (order : list Z -> list Z) (net : network) : option network :=
  let* net := fix_colours order net in
  let '(ins, outs) := get_exterior_colours net in
  let net := map (fun n => (sort_side_key (fst n), sort_side_key (snd n))) net in (* 683-684 *)
  let net := sort_by (fun n : splitter => none_key (fst (fst n))) net in (* 683 *)
  Some (sort_by (fun n : splitter => count_in outs (snd n) - count_in ins (fst n)) net). (* 684 *)
