(** Model of factorio_sat/calculate_optimal.py: the database of known sizes,
    the two search objectives, the concurrent computation, the query and the
    cross table.  [A] is the type of stored solutions (nested lists of tiles,
    never inspected by this file except when exported as blueprints). *)
From Coq Require Import String Ascii ZArith List Bool.
From Verif Require Import Spec_Tile M_Json M_Dict M_Tile M_Blueprint M_Solve M_Network.
Import ListNotations.
Local Open Scope string_scope.
Open Scope Z_scope.

(** calculate_optimal.py 24-31: factors.  math.floor(math.sqrt(v)) is the
    integer square root here; Python computes it in floating point, which agrees
    as long as v < 2^52. *)
Definition factors (v : Z) : list (Z * Z) :=
  flat_map (fun t =>
    if v mod t =? 0 then
      let a := t in let b := v / t in
      (a, b) :: (if a =? b then [] else [(b, a)])
    else [])
  (rev (map (fun i => Z.of_nat i + 1) (seq 0 (Z.to_nat (Z.sqrt v))))).

(** Sizes are triples: underground length, width, height. *)
Notation size := (Z * Z * Z)%type.
Definition size_eqb (s t : size) : bool :=
  let '(a, b, c) := s in let '(d, e, f) := t in (a =? d) && (b =? e) && (c =? f).
(** all(d1 <= d2 for d1, d2 in zip(s, t)) *)
Definition size_le (s t : size) : bool :=
  let '(a, b, c) := s in let '(d, e, f) := t in (a <=? d) && (b <=? e) && (c <=? f).

Section Store.
  Context {A : Type}.

  (** calculate_optimal.py 54-60: NetworkSolutionStore. *)
  Record store := { st_name : string; st_network : network;
                    st_exist : list (size * bool); st_solutions : list (size * A) }.
  Definition with_exist (st : store) (e : list (size * bool)) : store :=
    {| st_name := st_name st; st_network := st_network st; st_exist := e; st_solutions := st_solutions st |}.

  (** 55-60 (the network is read by the caller, see M_Network.open_network). *)
  Definition new_store (name : string) (net : network) : store :=
    {| st_name := name; st_network := net; st_exist := []; st_solutions := [] |}.

  (** 70-78: does_balancer_exist, on the entries in dictionary order. *)
  Fixpoint lookup (entries : list (size * bool)) (s : size) : option bool :=
    match entries with
    | [] => None
    | (other, true) :: r => if size_le other s then Some true else lookup r s
    | (other, false) :: r => if size_le s other then Some false else lookup r s
    end.
  Definition does_balancer_exist (st : store) (s : size) : option bool := lookup (st_exist st) s.

  (** 80-87: clean; [todo] is the copy made by list(self.exist.items()). *)
  Fixpoint clean_loop (todo entries : list (size * bool)) : list (size * bool) :=
    match todo with
    | [] => entries
    | (s, true) :: r => clean_loop r entries
    | (s, false) :: r =>
        let e := ddel size_eqb s entries in
        clean_loop r (match lookup e s with
                      | Some false => e
                      | _ => dset size_eqb s false e
                      end)
    end.
  Definition clean (st : store) : store := with_exist st (clean_loop (st_exist st) (st_exist st)).

  (** 106-109: add_solution. *)
  Definition add_solution (st : store) (s : size) (sol : option A) : store :=
    {| st_name := st_name st; st_network := st_network st;
       st_exist := dset size_eqb s (match sol with Some _ => true | None => false end) (st_exist st);
       st_solutions := match sol with Some x => dset size_eqb s x (st_solutions st) | None => st_solutions st end |}.

  (** 100-104: to_json.  A JSON object is a dictionary with string keys. *)
  Record json_item := { js_exist : option (list (string * bool)); js_solutions : option (list (string * A)) }.
  (** ','.join(map(str, key)) *)
  Definition key_text (s : size) : string :=
    let '(u, w, h) := s in str_int u ++ "," ++ str_int w ++ "," ++ str_int h.
  Definition dict_of {K V} (eqb : K -> K -> bool) (l : list (K * V)) : list (K * V) :=
    fold_left (fun d kv => dset eqb (fst kv) (snd kv) d) l [].
  Definition to_json (st : store) : json_item :=
    {| js_exist := Some (dict_of String.eqb (map (fun e => (key_text (fst e), snd e)) (st_exist st)));
       js_solutions := Some (dict_of String.eqb (map (fun e => (key_text (fst e), snd e)) (st_solutions st))) |}.

  (** key.split(',') *)
  Fixpoint split_comma (word s : string) : list string :=
    match s with
    | EmptyString => [word]
    | String c r => if Ascii.eqb c "," then word :: split_comma "" r else split_comma (word ++ String c "") r
    end.
  (** 92, 97: underground_length, width, height = map(int, key.split(',')). *)
  Definition parse_key (k : string) : option size :=
    let* l := omap parse_int (split_comma "" k) in
    match l with [u; w; h] => Some (u, w, h) | _ => None end.
  (** 90-93 and 95-98. *)
  Definition parse_entries {V} (items : list (string * V)) : option (list (size * V)) :=
    let* l := omap (fun kv => let* s := parse_key (fst kv) in Some (s, snd kv)) items in
    Some (dict_of size_eqb l).
  (** 89-98: from_json; [None] is an exception. *)
  Definition from_json (st : store) (data : json_item) : option store :=
    let* e := parse_entries (match js_exist data with Some d => d | None => [] end) in
    let* s := parse_entries (match js_solutions data with Some d => d | None => [] end) in
    Some {| st_name := st_name st; st_network := st_network st; st_exist := e; st_solutions := s |}.

  (** 282-287: the data save_progress dumps; 271-280: loading it.  The text of
      the file is json's business and is not modelled. *)
  Definition database := list (string * json_item).
  Definition save_data (stores : list store) : database :=
    fold_left (fun d st => dset String.eqb (st_name st) (to_json st) d) stores [].
  Definition load_data (data : database) (stores : list store) : option (list store) :=
    omap (fun st => match dget String.eqb (st_name st) data with
                    | None => Some st
                    | Some item => from_json st item
                    end) stores.

  (** * Objectives *)
  Inductive objective := Length | Area.

  (** 126-127, 147-148: max(input_count, output_count); [None] if
      get_input_output_colours raises. *)
  Definition min_height (net : network) : option Z :=
    let* ends := get_input_output_colours net in
    Some (Z.max (snd (fst ends)) (snd (snd ends))).
  Definition needed (net : network) : Z := Z.of_nat (length net) * 2.

  (** 130-139: LengthObjective's loop; the outer [None] is "out of fuel". *)
  Fixpoint length_loop (fuel : nat) (st : store) (u height width : Z) : option (option size) :=
    match fuel with
    | O => None
    | S fuel =>
        let s := (u, width, height) in
        match does_balancer_exist st s with
        | Some true => Some None
        | existence =>
            if (needed (st_network st) <=? (width - 2) * height)
               && match existence with None => true | Some _ => false end
            then Some (Some s)
            else length_loop fuel st u height (width + 1)
        end
    end.

  (** 151-164: the loop over the factors of one area; the outer [None] means
      that the loop ends and the next area is tried. *)
  Fixpoint area_pairs (st : store) (u mh : Z) (pairs : list (Z * Z)) : option (option size) :=
    match pairs with
    | [] => None
    | (width, height) :: r =>
        if (height <? mh) || (2 * mh <? height) then area_pairs st u mh r
        else if width * height <? needed (st_network st) then area_pairs st u mh r
        else
          let s := (u, width + 2, height) in
          match does_balancer_exist st s with
          | Some true => Some None
          | None => Some (Some s)
          | Some false => area_pairs st u mh r
          end
    end.
  (** 149-165: AreaObjective's loop. *)
  Fixpoint area_loop (fuel : nat) (st : store) (u mh area : Z) : option (option size) :=
    match fuel with
    | O => None
    | S fuel =>
        match area_pairs st u mh (factors area) with
        | Some r => Some r
        | None => area_loop fuel st u mh (area + 1)
        end
    end.

  (** The loops have no bound in the code.  These bounds are enough: beyond the
      widest impossible size nothing is impossible (P_Optimal.v). *)
  Definition widest (st : store) : Z := fold_right Z.max 0 (map (fun e => snd (fst (fst e))) (st_exist st)).
  Definition length_fuel (st : store) : nat := Z.to_nat (widest st + needed (st_network st) + 3).
  Definition area_fuel (st : store) (mh : Z) : nat := Z.to_nat ((widest st + needed (st_network st) + 3) * mh + 1).

  (** 125-139, 146-165: next_size; the outer [None] is an exception. *)
  Definition next_size (o : objective) (st : store) (u : Z) : option (option size) :=
    let* mh := min_height (st_network st) in
    match o with
    | Length => length_loop (length_fuel st) st u mh 3
    | Area => area_loop (area_fuel st mh) st u mh mh
    end.

  (** 141-142, 167-168: loss, compared lexicographically; the area is a pair with
      a constant second component.  No loss is float('inf'), so the second test
      of line 112 never fails. *)
  Definition loss (o : objective) (s : size) : Z * Z :=
    let '(u, w, h) := s in match o with Length => (h, w) | Area => ((w - 2) * h, 0) end.
  Definition loss_lt (a b : Z * Z) : bool := (fst a <? fst b) || ((fst a =? fst b) && (snd a <? snd b)).

  (** 111-113: best_current_solution; min keeps the first of equal elements. *)
  Fixpoint best (o : objective) (l : list (size * A)) : option (size * A) :=
    match l with
    | [] => None
    | x :: r => match best o r with
                | None => Some x
                | Some y => if loss_lt (loss o (fst y)) (loss o (fst x)) then Some y else Some x
                end
    end.
  Definition usable_solutions (st : store) (u : Z) : list (size * A) :=
    filter (fun e => fst (fst (fst e)) <=? u) (st_solutions st).
  Definition best_current_solution (o : objective) (st : store) (u : Z) : option A :=
    option_map snd (best o (usable_solutions st u)).

  (** 302-310: what a query prints for one store; the outer [None] is an
      exception, the inner one means that nothing is printed. *)
  Definition query (o : objective) (allow_imperfect : bool) (u : Z) (st : store) : option (option A) :=
    if allow_imperfect then Some (best_current_solution o st u)
    else let* n := next_size o st u in
         match n with
         | Some _ => Some None
         | None => Some (best_current_solution o st u)
         end.

  (** * 312-333: compute *)
  (** A task is a store and the size it waits for; [None]: it has finished. *)
  Record task := { tk_store : store; tk_pending : option size }.
  Definition resume (o : objective) (u : Z) (st : store) : option task :=
    let* n := next_size o st u in Some {| tk_store := st; tk_pending := n |}.
  (** The state of a computation: the tasks, and what the result file holds
      ([None]: not written yet). *)
  Record computation := { cp_tasks : list task; cp_file : option database }.
  (** 329-330: every task runs up to its first await. *)
  Definition start (o : objective) (u : Z) (stores : list store) : option computation :=
    let* ts := omap (resume o u) stores in Some {| cp_tasks := ts; cp_file := None |}.

  Fixpoint set_nth {X} (n : nat) (x : X) (l : list X) : list X :=
    match n, l with
    | _, [] => []
    | O, _ :: r => x :: r
    | S n, y :: r => y :: set_nth n x r
    end.
  (** 318-323: the executor delivers the answer [sol] for task [i]: the store is
      updated and cleaned, progress is saved, and the loop goes round.  asyncio
      runs this without interruption, since there is no other await. *)
  Definition deliver (o : objective) (u : Z) (c : computation) (i : nat) (sol : option A) : option computation :=
    match nth_error (cp_tasks c) i with
    | Some {| tk_store := st; tk_pending := Some s |} =>
        let st' := clean (add_solution st s sol) in
        let file := save_data (map tk_store (set_nth i {| tk_store := st'; tk_pending := None |} (cp_tasks c))) in
        let* t := resume o u st' in
        Some {| cp_tasks := set_nth i t (cp_tasks c); cp_file := Some file |}
    | _ => None
    end.
End Store.
Arguments store : clear implicits.
Arguments json_item : clear implicits.
Arguments database : clear implicits.
Arguments task : clear implicits.
Arguments computation : clear implicits.

(** 282-287: save_progress as a sequence of states of the file on disk:
    open(..., 'w') empties it, then the pieces written by json.dump follow.
    A crash leaves one of these states. *)
Fixpoint written (sofar : string) (pieces : list string) : list string :=
  match pieces with [] => [] | p :: r => (sofar ++ p) :: written (sofar ++ p) r end.
Definition save_states (old : string) (pieces : list string) : list string :=
  old :: "" :: written "" pieces.

(** calculate_optimal.py 17-21, 171-175: get_belt_level. *)
Definition maximum_underground_lengths : list (string * Z) := [("normal", 4); ("fast", 6); ("express", 8)].
Fixpoint level_for (u : Z) (levels : list (string * Z)) (last : string) : string :=
  match levels with
  | [] => last
  | (name, len) :: r => if u <=? len then name else level_for u r name
  end.
Definition get_belt_level (u : Z) : string := level_for u (sort_by snd maximum_underground_lengths) "".

(** * 62-68: ordering_key *)
(** The longest run of digits at the front (the ASCII ones; \d also matches
    other Unicode digits). *)
Definition is_digit (c : ascii) : bool := let n := nat_of_ascii c in ((48 <=? n) && (n <=? 57))%nat.
Fixpoint take_digits (s : string) : string * string :=
  match s with
  | String c r => if is_digit c then let '(d, t) := take_digits r in (String c d, t) else ("", s)
  | EmptyString => ("", "")
  end.
(** The dot of the pattern matches no newline. *)
Fixpoint to_newline (s : string) : string :=
  match s with
  | String c r => if Ascii.eqb c newline then "" else String c (to_newline r)
  | EmptyString => ""
  end.
Definition digits_value (s : string) : Z := match parse_int s with Some n => n | None => 0 end.
(** A key: two numbers ([None] is infinity) and a text.  Greedy matching needs no
    backtracking, because neither x nor - is a digit. *)
Definition ordering_key (name : string) : (option Z * option Z) * string :=
  let none := ((None, None), name) in
  let '(a, r) := take_digits name in
  match a, r with
  | String _ _, String c r' =>
      if Ascii.eqb c "x" || Ascii.eqb c "-" then
        let '(b, r'') := take_digits r' in
        match b with
        | String _ _ => ((Some (digits_value a), Some (digits_value b)), to_newline r'')
        | EmptyString => none
        end
      else none
  | _, _ => none
  end.
Fixpoint string_le (a b : string) : bool :=
  match a, b with
  | EmptyString, _ => true
  | _, EmptyString => false
  | String c a', String d b' =>
      (nat_of_ascii c <? nat_of_ascii d)%nat || ((nat_of_ascii c =? nat_of_ascii d)%nat && string_le a' b')
  end.
Definition inf_lt (a b : option Z) : bool :=
  match a, b with Some x, Some y => x <? y | Some _, None => true | None, _ => false end.
Definition inf_eqb (a b : option Z) : bool :=
  match a, b with Some x, Some y => x =? y | None, None => true | _, _ => false end.
(** Comparison of tuples. *)
Definition key_le (a b : (option Z * option Z) * string) : bool :=
  let '((a1, a2), a3) := a in let '((b1, b2), b3) := b in
  inf_lt a1 b1 || (inf_eqb a1 b1 && (inf_lt a2 b2 || (inf_eqb a2 b2 && string_le a3 b3))).
Definition sorted_stores {A} (stores : list (store A)) : list (store A) :=
  sort (fun s t => key_le (ordering_key (st_name s)) (ordering_key (st_name t))) stores.

(** * 178-230: export_crosstable *)
(** The marks; texts are sequences of UTF-8 bytes. *)
Inductive mark := Yellow | Red | Blue | Impossible | Unknown.
Definition byte (n : nat) : string := String (ascii_of_nat n) "".
Definition mark_text (m : mark) : string :=
  match m with
  | Yellow => byte 240 ++ byte 159 ++ byte 159 ++ byte 168
  | Red => byte 240 ++ byte 159 ++ byte 159 ++ byte 165
  | Blue => byte 240 ++ byte 159 ++ byte 159 ++ byte 166
  | Impossible => byte 226 ++ byte 157 ++ byte 140
  | Unknown => byte 226 ++ byte 157 ++ byte 148
  end.
Definition belt_levels : list (Z * mark) := [(4, Yellow); (6, Red); (8, Blue)].
(** 218-226 *)
Fixpoint cell_loop {A} (st : store A) (w h : Z) (levels : list (Z * mark)) (is_known : bool) : mark :=
  match levels with
  | [] => if is_known then Impossible else Unknown
  | (u, m) :: r =>
      match does_balancer_exist st (u, w + 2, h) with
      | Some true => m
      | Some false => cell_loop st w h r true
      | None => cell_loop st w h r is_known
      end
  end.
Definition cell {A} (st : store A) (w h : Z) : mark := cell_loop st w h belt_levels false.

(** f'{n:<3}' *)
Fixpoint spaces (n : nat) : string := match n with O => "" | S n => String " " (spaces n) end.
Definition pad3 (s : string) : string := s ++ spaces (3 - String.length s).
Definition zrange (a b : Z) : list Z := map (fun i => a + Z.of_nat i) (seq 0 (Z.to_nat (b - a))).
Definition nl : string := String newline "".
Definition zmax (l : list Z) : Z := match l with [] => 0 | x :: r => fold_left Z.max r x end.
(** 204-230: the part written for one store; a mark is one code point wide. *)
Definition store_text {A} (st : store A) : option string :=
  match st_exist st with
  | [] => Some ""
  | _ =>
      let max_width := zmax (map (fun e => snd (fst (fst e))) (st_exist st)) - 2 in
      let max_height := zmax (map (fun e => snd (fst e)) (st_exist st)) in
      let* mh := min_height (st_network st) in
      Some ("## " ++ st_name st ++ nl
        ++ "|     |" ++ String.concat "" (map (fun i => " " ++ pad3 (str_int i) ++ " |") (zrange 1 (max_width + 1))) ++ nl
        ++ "|" ++ String.concat "" (repeat "-----|" (Z.to_nat (max_width + 1))) ++ nl
        ++ String.concat "" (map (fun h =>
             "| " ++ pad3 (str_int h) ++ " |"
             ++ String.concat "" (map (fun w => " " ++ mark_text (cell st w h) ++ "   |") (zrange 1 (max_width + 1)))
             ++ nl) (zrange mh (max_height + 1)))
        ++ nl)
  end.
(** 188-197: what is kept of the old file ([None]: there is none). *)
Fixpoint take_preamble (lines : list string) : string :=
  match lines with
  | [] => ""
  | l :: r => if starts_with "# Balancers" l then "" else l ++ take_preamble r
  end.
Definition preamble_of (old : option string) : string :=
  match old with None => "" | Some text => take_preamble (readlines text) end.
(** 199-230: the new contents of the file. *)
Definition export_crosstable {A} (stores : list (store A)) (old : option string) : option string :=
  let* parts := omap store_text (sorted_stores stores) in
  Some (preamble_of old ++ "# Balancers" ++ nl ++ String.concat "" parts).

(** * Exporting query results: 291-297 and blueprint.py 57-83 *)
(** The belt level passed to make_blueprint: a TransportBeltLevel, or (as
    get_belt_level returns) a string, which has no attribute belt_variant,
    underground_variant or splitter_variant. *)
Inductive level_arg := LevelEnum (l : level) | LevelName (s : string).
Definition attribute (a : level_arg) (f : level -> string) : option string :=
  match a with LevelEnum l => Some (f l) | LevelName _ => None end.
(** blueprint.py 60-104 for any value of [level]; None: an exception. *)
Definition tile_entity_for (a : level_arg) (n : Z) (c : (Z * Z) * tile) : option (option entity) :=
  let '((x, y), t) := c in
  let named f := let* _ := attribute a f in
                 match a with LevelEnum l => tile_entity l n c | LevelName _ => None end in
  match t with
  | Belt _ _ => named belt_variant
  | Underground _ _ => named underground_variant
  | Splitter _ true => named splitter_variant
  | _ => tile_entity NORMAL n c
  end.
Fixpoint make_entities_for (a : level_arg) (n : Z) (cs : list ((Z * Z) * tile)) : option (list entity) :=
  match cs with
  | [] => Some []
  | c :: r =>
    let* oe := tile_entity_for a n c in
    match oe with
    | None => make_entities_for a n r
    | Some e => let* es := make_entities_for a (n + 1) r in Some (e :: es)
    end
  end.
Definition make_blueprint_for (a : level_arg) (g : list (list tile)) : option (list entity) :=
  make_entities_for a 1 (enum_grid g).
(** 297: make_blueprint(tiles, label, get_belt_level(args.underground_length)). *)
Definition export_solution (u : Z) (g : list (list tile)) : option (list entity) :=
  make_blueprint_for (LevelName (get_belt_level u)) g.
