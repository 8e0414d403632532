(** Model of blueprint.py 36-54, 57-111 and 145-199 and of blueprint_book.py: the strings of blueprints,
    with the parts of Python's json and base64 that they use. *)
From Coq Require Import String Ascii ZArith List Bool.
From Verif Require Import Spec_Tile M_Json M_Tile M_Solve M_Network M_Blueprint.
Import ListNotations.
Local Open Scope string_scope.
Open Scope Z_scope.

(** Values of Python's json.  Simplification: the floats are the multiples of one
    half, which are all that blueprint.py makes; [DHalf n] is the float n/2.
    Characters have codes below 256. *)
Inductive doc :=
| DNull
| DBool (b : bool)
| DNum (n : Z)
| DHalf (n : Z)
| DStr (s : string)
| DArr (l : list doc)
| DObj (l : list (string * doc)).

(** * json.dumps with its default arguments *)
Definition quote_char : ascii := "034".
Definition code (c : ascii) : nat := nat_of_ascii c.
Definition hex (n : nat) : ascii := ascii_of_nat (if (n <? 10)%nat then 48 + n else 87 + n).
(** json/encoder.py: ESCAPE_ASCII and ESCAPE_DCT. *)
Definition escape (c : ascii) : string :=
  let n := code c in
  if Ascii.eqb c "034" then "\" ++ String "034" ""
  else if Ascii.eqb c "\" then "\\"
  else if (n =? 10)%nat then "\n" else if (n =? 13)%nat then "\r" else if (n =? 9)%nat then "\t"
  else if (n =? 12)%nat then "\f" else if (n =? 8)%nat then "\b"
  else if (32 <=? n)%nat && (n <=? 126)%nat then String c ""
  else "\u00" ++ String (hex (n / 16)) (String (hex (n mod 16)) "").
Fixpoint escaped (s : string) : string := match s with EmptyString => "" | String c r => escape c ++ escaped r end.
Definition quoted (s : string) : string := String quote_char (escaped s ++ String quote_char "").
(** float.__repr__ of n/2, below 10^16. *)
Definition half_text (n : Z) : string :=
  (if n <? 0 then "-" else "") ++ str_int (Z.abs n / 2) ++ (if Z.even n then ".0" else ".5").
Fixpoint dumps (d : doc) : string :=
  match d with
  | DNull => "null"
  | DBool b => if b then "true" else "false"
  | DNum n => str_int n
  | DHalf n => half_text n
  | DStr s => quoted s
  | DArr l => "[" ++ String.concat ", " (map dumps l) ++ "]"
  | DObj l => "{" ++ String.concat ", " (map (fun f => quoted (fst f) ++ ": " ++ dumps (snd f)) l) ++ "}"
  end.

(** * json.loads *)
Definition is_blank (c : ascii) : bool := let n := code c in ((n =? 32) || (n =? 9) || (n =? 10) || (n =? 13))%nat.
Fixpoint skip (s : string) : string := match s with String c r => if is_blank c then skip r else s | _ => s end.
Definition is_digit (c : ascii) : bool := let n := code c in ((48 <=? n) && (n <=? 57))%nat.
Definition unhex (c : ascii) : option nat :=
  let n := code c in
  (if (48 <=? n) && (n <=? 57) then Some (n - 48) else if (97 <=? n) && (n <=? 102) then Some (n - 87)
   else if (65 <=? n) && (n <=? 70) then Some (n - 55) else None)%nat.
(** json/decoder.py: py_scanstring, after the opening quote; strict.
    Simplification: characters beyond code 255 are refused. *)
Fixpoint scan_string (s : string) : option (string * string) :=
  match s with
  | EmptyString => None
  | String c r =>
      if Ascii.eqb c "034" then Some ("", r)
      else if Ascii.eqb c "\" then
        match r with
        | EmptyString => None
        | String e r' =>
            if Ascii.eqb e "u" then
              match r' with
              | String a (String b (String x (String y r'))) =>
                  let* a := unhex a in let* b := unhex b in let* x := unhex x in let* y := unhex y in
                  if (a =? 0)%nat && (b =? 0)%nat then
                    let* (t, q) := scan_string r' in Some (String (ascii_of_nat (16 * x + y)) t, q)
                  else None
              | _ => None
              end
            else
              let* c :=
                (if Ascii.eqb e "034" then Some e else if Ascii.eqb e "\" then Some e else if Ascii.eqb e "/" then Some e
                 else if Ascii.eqb e "b" then Some (ascii_of_nat 8) else if Ascii.eqb e "f" then Some (ascii_of_nat 12)
                 else if Ascii.eqb e "n" then Some (ascii_of_nat 10) else if Ascii.eqb e "r" then Some (ascii_of_nat 13)
                 else if Ascii.eqb e "t" then Some (ascii_of_nat 9) else None) in
              let* (t, q) := scan_string r' in Some (String c t, q)
        end
      else if (code c <? 32)%nat then None
      else let* (t, q) := scan_string r in Some (String c t, q)
  end.
(** json/scanner.py: NUMBER_RE.  Simplification: a fraction other than .0 and .5
    and an exponent are refused. *)
Fixpoint digits (s : string) : string * string :=
  match s with
  | String c r => if is_digit c then let '(d, q) := digits r in (String c d, q) else ("", s)
  | EmptyString => ("", "")
  end.
Definition whole (s : string) : option (string * string) :=
  match s with
  | String c r => if Ascii.eqb c "0" then Some ("0", r) else let '(d, q) := digits s in if String.eqb d "" then None else Some (d, q)
  | EmptyString => None
  end.
Definition exponent (s : string) : bool := match s with String c _ => Ascii.eqb c "e" || Ascii.eqb c "E" | _ => false end.
Definition scan_number (s : string) : option (doc * string) :=
  let '(negative, r) := match s with String c r => if Ascii.eqb c "-" then (true, r) else (false, s) | _ => (false, s) end in
  let* (d, r) := whole r in
  let* n := parse_int d in
  let sign (k : Z) := if negative then - k else k in
  let plain := if exponent r then None else Some (DNum (sign n), r) in
  match r with
  | String c r' =>
      if Ascii.eqb c "." then
        let '(f, q) := digits r' in
        if String.eqb f "" then Some (DNum (sign n), r)
        else if exponent q then None
        else if String.eqb f "0" then Some (DHalf (sign (2 * n)), q)
        else if String.eqb f "5" then Some (DHalf (sign (2 * n + 1)), q) else None
      else plain
  | _ => plain
  end.

(** dict(pairs): a later value replaces an earlier one. *)
Definition as_dict (l : list (string * doc)) : list (string * doc) := fold_left (fun d f => aset (fst f) (snd f) d) l [].

Section Scan.
  Variable value : string -> option (doc * string).
  (** json/decoder.py: JSONArray, after the bracket and with an element ahead. *)
  Fixpoint items (k : nat) (s : string) : option (list doc * string) :=
    match k with
    | O => None
    | S k' =>
        let* (x, r) := value s in
        match skip r with
        | String "," r' => let* (xs, q) := items k' (skip r') in Some (x :: xs, q)
        | String "]" r' => Some ([x], r')
        | _ => None
        end
    end.
  (** json/decoder.py: JSONObject, likewise; [s] starts at the key. *)
  Fixpoint members (k : nat) (s : string) : option (list (string * doc) * string) :=
    match k with
    | O => None
    | S k' =>
        match s with
        | String "034" r =>
            let* (key, r) := scan_string r in
            match skip r with
            | String ":" r =>
                let* (x, r) := value (skip r) in
                match skip r with
                | String "," r' => let* (xs, q) := members k' (skip r') in Some ((key, x) :: xs, q)
                | String "}" r' => Some ([(key, x)], r')
                | _ => None
                end
            | _ => None
            end
        | _ => None
        end
    end.
End Scan.
(** What follows a word. *)
Fixpoint after (w s : string) : option string :=
  match w, s with
  | EmptyString, _ => Some s
  | String c w', String d s' => if Ascii.eqb c d then after w' s' else None
  | _, EmptyString => None
  end.
(** json/scanner.py: scan_once, with as many levels as [n]. *)
Fixpoint scan_once (n : nat) (s : string) : option (doc * string) :=
  match n with
  | O => None
  | S n' =>
      match s with
      | EmptyString => None
      | String c r =>
          if Ascii.eqb c "034" then let* (t, q) := scan_string r in Some (DStr t, q)
          else if Ascii.eqb c "[" then
            match skip r with
            | String "]" q => Some (DArr [], q)
            | r' => let* (l, q) := items (scan_once n') n' r' in Some (DArr l, q)
            end
          else if Ascii.eqb c "{" then
            match skip r with
            | String "}" q => Some (DObj [], q)
            | r' => let* (l, q) := members (scan_once n') n' r' in Some (DObj (as_dict l), q)
            end
          else
            match after "null" s, after "true" s, after "false" s with
            | Some q, _, _ => Some (DNull, q)
            | _, Some q, _ => Some (DBool true, q)
            | _, _, Some q => Some (DBool false, q)
            | _, _, _ => scan_number s
            end
      end
  end.
(** json/decoder.py: decode.  No text is nested deeper than it is long.
    Simplifications: bytes are read as characters with those codes (the texts of
    dumps are all ASCII), and NaN and the infinities are refused. *)
Definition loads (s : string) : option doc :=
  let* (d, r) := scan_once (String.length s) (skip s) in
  match skip r with EmptyString => Some d | _ => None end.

(** * base64 *)
Definition alphabet : string := "ABCDEFGHIJKLMNOPQRSTUVWXYZabcdefghijklmnopqrstuvwxyz0123456789+/".
Definition letter64 (n : nat) : ascii := match String.get n alphabet with Some c => c | None => "A" end.
(** binascii.b2a_base64. *)
Fixpoint b64encode (s : string) : string :=
  match s with
  | EmptyString => ""
  | String a EmptyString => let a := code a in String (letter64 (a / 4)) (String (letter64 (a mod 4 * 16)) "==")
  | String a (String b EmptyString) =>
      let a := code a in let b := code b in
      String (letter64 (a / 4)) (String (letter64 (a mod 4 * 16 + b / 16)) (String (letter64 (b mod 16 * 4)) "="))
  | String a (String b (String c r)) =>
      let a := code a in let b := code b in let c := code c in
      String (letter64 (a / 4)) (String (letter64 (a mod 4 * 16 + b / 16))
        (String (letter64 (b mod 16 * 4 + c / 64)) (String (letter64 (c mod 64)) (b64encode r))))
  end.
Fixpoint index_of (c : ascii) (s : string) : option nat :=
  match s with EmptyString => None | String d r => if Ascii.eqb c d then Some O else option_map S (index_of c r) end.
(** binascii.a2b_base64, not strict: the position in the group of four, the bits
    left over, and the signs = seen since the last letter.  Other characters are
    passed over; enough signs = end the text. *)
Fixpoint a2b (quad left pads : nat) (s : string) : option string :=
  match s with
  | EmptyString => if (quad =? 0)%nat then Some "" else None
  | String c r =>
      if Ascii.eqb c "=" then
        if (2 <=? quad)%nat then if (4 <=? quad + S pads)%nat then Some "" else a2b quad left (S pads) r
        else a2b quad left pads r
      else
        match index_of c alphabet with
        | None => a2b quad left pads r
        | Some v =>
            match quad with
            | O => a2b 1 v 0 r
            | S O => let* t := a2b 2 (v mod 16) 0 r in Some (String (ascii_of_nat (left * 4 + v / 16)) t)
            | S (S O) => let* t := a2b 3 (v mod 4) 0 r in Some (String (ascii_of_nat (left * 16 + v / 4)) t)
            | _ => let* t := a2b 0 0 0 r in Some (String (ascii_of_nat (left * 64 + v)) t)
            end
        end
  end.
(** base64.b64decode of a str: it must be ASCII. *)
Definition b64decode (s : string) : option string :=
  if forallb (fun c => (code c <? 128)%nat) (list_ascii_of_string s) then a2b 0 0 0 s else None.

(** * blueprint.py *)
Section Strings.
  (** zlib.compress( . , level=9) and zlib.decompress (an error is [None]). *)
  Variables (compress : string -> string) (decompress : string -> option string).
  (** 36-44. *)
  Definition decode_blueprint (s : string) : option doc :=
    match s with
    | String "0" r => let* compressed := b64decode r in let* raw := decompress compressed in loads raw
    | _ => None
    end.
  (** 47-51. *)
  Definition encode_blueprint (d : doc) : string := String "0" (b64encode (compress (dumps d))).
End Strings.

(** 61-104: an entity as a dictionary, in the order of the assignments. *)
Definition entity_doc (e : entity) : doc :=
  DObj ([("entity_number", DNum (e_number e)); ("position", DObj [("x", DHalf (e_x2 e)); ("y", DHalf (e_y2 e))])] ++
        match e_name e with Some n => [("name", DStr n)] | None => [] end ++
        match e_direction e with Some d => [("direction", DNum d)] | None => [] end ++
        match e_type e with Some t => [("type", DStr t)] | None => [] end)%list.
(** 54, 106-111: the result of make_blueprint. *)
Definition blueprint_doc (label : option string) (es : list entity) : doc :=
  DObj [("blueprint", DObj
    ([("icons", DArr [DObj [("signal", DObj [("type", DStr "item"); ("name", DStr "splitter")]); ("index", DNum 1)]]);
      ("item", DStr "blueprint"); ("version", DNum 281474976710656)] ++
     match label with Some s => [("label", DStr s)] | None => [] end ++
     [("entities", DArr (map entity_doc es))])%list)].
Definition make_blueprint_doc (g : list (list tile)) (label : option string) (l : level) : option doc :=
  let* es := make_blueprint l g in Some (blueprint_doc label es).

(** Indexing of dictionaries. *)
Definition dget (k : string) (d : doc) : option doc := match d with DObj l => assoc k l | _ => None end.
(** Twice a number. *)
Definition doubled (d : doc) : option Z := match d with DNum n => Some (2 * n) | DHalf n => Some n | _ => None end.
(** 151-155, 168: what import_blueprint reads of an entity.  Simplification: name
    and type are strings and direction is an integer, else it fails here. *)
Definition read_entity (d : doc) : option entity :=
  let* pos := dget "position" d in
  let* px := dget "x" pos in let* py := dget "y" pos in
  let* x := doubled px in let* y := doubled py in
  let* n := dget "name" d in
  let* name := match n with DStr s => Some s | _ => None end in
  let* dir := match dget "direction" d with None => Some None | Some (DNum k) => Some (Some k) | Some _ => None end in
  let* type := match dget "type" d with None => Some None | Some (DStr s) => Some (Some s) | Some _ => None end in
  Some {| e_number := 0; e_x2 := x; e_y2 := y; e_name := Some name; e_direction := dir; e_type := type |}.
(** 145-151: data['blueprint']['entities']. *)
Definition read_entities (d : doc) : option (list entity) :=
  let* b := dget "blueprint" d in
  let* es := dget "entities" b in
  match es with DArr l => omap read_entity l | _ => None end.
(** 145-199: import_blueprint. *)
Definition import_blueprint_doc (d : doc) : option (list (list tile)) := let* es := read_entities d in import_blueprint es.

(** blueprint_book.py 20-23: item['index'] = i for the items in turn (TypeError
    for what is not a dictionary). *)
Fixpoint numbered (i : Z) (ds : list doc) : option (list doc) :=
  match ds with
  | [] => Some []
  | DObj o :: r => let* r := numbered (i + 1) r in Some (DObj (aset "index" (DNum i) o) :: r)
  | _ => None
  end.
(** blueprint_book.py 11-25. *)
Definition pack_docs (ds : list doc) (label : option string) : option doc :=
  let* items := numbered 0 ds in
  Some (DObj [("blueprint_book", DObj
    ([("item", DStr "blueprint-book"); ("active_index", DNum 0); ("version", DNum 281474976710656)] ++
     match label with Some s => [("label", DStr s)] | None => [] end ++ [("blueprints", DArr items)])%list)]).
(** blueprint_book.py 7-8.  Simplification: what is not a list is refused. *)
Definition unpack_doc (d : doc) : option (list doc) :=
  let* b := dget "blueprint_book" d in let* l := dget "blueprints" b in match l with DArr l => Some l | _ => None end.
Section Books.
  Variables (compress : string -> string) (decompress : string -> option string).
  (** blueprint_book.py 40-47: the lines of the input to the line of the output. *)
  Definition pack_lines (label : option string) (lines : list string) : option string :=
    let* ds := omap (decode_blueprint decompress) lines in
    let* book := pack_docs ds label in Some (encode_blueprint compress book).
  (** blueprint_book.py 34-39: the line of the input to the lines of the output. *)
  Definition unpack_line (line : string) : option (list string) :=
    let* d := decode_blueprint decompress line in
    let* items := unpack_doc d in Some (map (encode_blueprint compress) items).
End Books.
