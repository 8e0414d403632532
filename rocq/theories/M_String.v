(** Model of stringifier.py.  A character is its Unicode code point, a line a
    list of code points. *)
From Coq Require Import ZArith List Bool.
From Verif Require Import Spec_Tile M_Json M_Tile.
Import ListNotations.
Open Scope Z_scope.

(** Dictionary key equality of the frozen tile dataclasses. *)
Definition tile_eqb (a b : tile) : bool :=
  match a, b with
  | Empty, Empty => true
  | Filler, Filler => true
  | Belt i o, Belt i' o' => dir_eqb i i' && dir_eqb o o'
  | Underground d e, Underground d' e' => dir_eqb d d' && eqb e e'
  | Splitter d e, Splitter d' e' => dir_eqb d d' && eqb e e'
  | Inserter d k, Inserter d' k' => dir_eqb d d' && (k =? k')
  | Assembler x y, Assembler x' y' => (x =? x') && (y =? y')
  | _, _ => false
  end.

(** stringifier.py 51-86: MAPPING. *)
Definition MAPPING : list (tile * Z) :=
  [ (Empty, 32); (Filler, 88);
    (Belt RIGHT RIGHT, 8594); (Belt UP UP, 8593); (Belt LEFT LEFT, 8592); (Belt DOWN DOWN, 8595);
    (Belt RIGHT UP, 104); (Belt UP LEFT, 116); (Belt LEFT DOWN, 72); (Belt DOWN RIGHT, 84);
    (Belt RIGHT DOWN, 102); (Belt DOWN LEFT, 103); (Belt LEFT UP, 70); (Belt UP RIGHT, 71);
    (Underground RIGHT true, 108); (Underground RIGHT false, 76);
    (Underground UP true, 105); (Underground UP false, 73);
    (Underground LEFT true, 106); (Underground LEFT false, 74);
    (Underground DOWN true, 107); (Underground DOWN false, 75);
    (Splitter RIGHT true, 100); (Splitter RIGHT false, 68);
    (Splitter UP true, 119); (Splitter UP false, 87);
    (Splitter LEFT true, 97); (Splitter LEFT false, 65);
    (Splitter DOWN true, 115); (Splitter DOWN false, 83) ].

(** stringifier.py 93-95: encode_tile on one tile ('U' = 85 by default). *)
Fixpoint mapping_get (t : tile) (m : list (tile * Z)) : option Z :=
  match m with
  | [] => None
  | (k, v) :: r => if tile_eqb t k then Some v else mapping_get t r
  end.
Definition encode_tile (t : tile) : Z :=
  match mapping_get t MAPPING with Some c => c | None => 85 end.

(** stringifier.py 88, 98-99: INV_MAPPING and decode_char; in the dictionary
    built from the swapped pairs the last pair with a given key wins. *)
Fixpoint inv_get (c : Z) (m : list (tile * Z)) : option tile :=
  match m with
  | [] => None
  | (k, v) :: r => match inv_get c r with
                   | Some t => Some t
                   | None => if c =? v then Some k else None
                   end
  end.
Definition decode_char (c : Z) : option tile := inv_get c MAPPING.

(** stringifier.py 90. *)
Definition END_STOP : Z := 9496.

(** stringifier.py 102-113: the character array after all the assignments, a
    later assignment taking precedence over an earlier one. *)
Definition char_at (g : list (list tile)) (h w i j : nat) : Z :=
  if (Nat.eqb i (h + 1) && Nat.eqb j (2 * w))%bool then END_STOP
  else if (Nat.eqb i 0 && Nat.eqb j (2 * w))%bool then 9488
  else if (Nat.eqb i (h + 1) && Nat.eqb j 0)%bool then 9492
  else if (Nat.eqb i 0 && Nat.eqb j 0)%bool then 9484
  else if (Nat.eqb j 0 || Nat.eqb j (2 * w))%bool then 9474
  else if (Nat.eqb i 0 || Nat.eqb i (h + 1))%bool then 9472
  else if Nat.odd j then encode_tile (nth (Nat.div2 j) (nth (i - 1) g []) Empty)
  else 32.

(** stringifier.py 102-115: encode, before the lines are joined. The array has
    h+2 rows and 2w+1 columns. Simplification: [h] and [w] are read off the list of rows;
    numpy raises on an empty grid, which the theorems exclude. *)
Definition encode_lines (g : list (list tile)) : list (list Z) :=
  let h := length g in
  let w := length (hd [] g) in
  map (fun i => map (char_at g h w i) (seq 0 (2 * w + 1))) (seq 0 (h + 2)).

(** stringifier.py 115: '\n'.join. *)
Fixpoint join_lines (ls : list (list Z)) : list Z :=
  match ls with
  | [] => []
  | [l] => l
  | l :: r => l ++ 10 :: join_lines r
  end.
Definition encode (g : list (list tile)) : list Z := join_lines (encode_lines g).

(** Python slice [1:-1]. *)
Definition inner {A} (l : list A) : list A := removelast (tl l).

(** stringifier.py 122-127: one line. Even columns are tiles, odd columns must
    be blank. *)
Fixpoint decode_cols (col : nat) (l : list Z) : option (list tile) :=
  match l with
  | [] => Some []
  | c :: r =>
    if Nat.odd col then
      if c =? 32 then decode_cols (S col) r else None
    else
      let* t := decode_char c in
      let* ts := decode_cols (S col) r in
      Some (t :: ts)
  end.

(** stringifier.py 118-128: decode. A line with more tiles than the first line
    allows raises IndexError; one with fewer leaves None in the array, which
    write_tile (blueprint.py 255) rejects: both are None here. *)
Definition decode (lines : list (list Z)) : option (list (list tile)) :=
  let w := Nat.div2 (length (hd [] lines)) in
  omap (fun l => let* ts := decode_cols 0 (inner l) in
                 if Nat.eqb (length ts) w then Some ts else None) (inner lines).

(** The characters that str.strip() removes: str.isspace() of Python's Unicode
    tables. *)
Definition is_space (c : Z) : bool :=
  (9 <=? c) && (c <=? 13) || (28 <=? c) && (c <=? 32) || (c =? 133) || (c =? 160) || (c =? 5760) ||
  (8192 <=? c) && (c <=? 8202) || (c =? 8232) || (c =? 8233) || (c =? 8239) || (c =? 8287) || (c =? 12288).
Fixpoint lstrip (l : list Z) : list Z :=
  match l with
  | c :: r => if is_space c then lstrip r else l
  | [] => []
  end.
Definition strip (l : list Z) : list Z := rev (lstrip (rev (lstrip l))).

(** str.endswith(END_STOP). *)
Definition ends_stop (l : list Z) : bool :=
  match rev l with c :: _ => c =? END_STOP | [] => false end.

(** stringifier.py 142-149: decode mode of main over the lines of standard
    input; [acc] holds the lines read so far. At end of input the program
    stops (EOFError); a picture that cannot be decoded also ends it (None). *)
Fixpoint decode_stream (acc : list (list Z)) (input : list (list Z)) : option (list (list (list tile))) :=
  match input with
  | [] => Some []
  | l :: r =>
    let acc' := acc ++ [strip l] in
    if ends_stop (strip l) then
      let* g := decode acc' in
      let* gs := decode_stream [] r in
      Some (g :: gs)
    else decode_stream acc' r
  end.

(** The lines of a text (what successive calls of input() return; a final
    newline does not start another line). *)
Fixpoint split_lines (cur : list Z) (s : list Z) : list (list Z) :=
  match s with
  | [] => match cur with [] => [] | _ => [cur] end
  | c :: r => if c =? 10 then cur :: split_lines [] r else split_lines (cur ++ [c]) r
  end.
Definition lines_of (s : list Z) : list (list Z) := split_lines [] s.
