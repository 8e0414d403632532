(** Model of factorio_sat/solver.py: class Grid. *)
From Coq Require Import ZArith List Bool String.
From Verif Require Import Spec_Cnf Spec_Tile M_Json M_Tile M_Util M_Card M_Template.
Import ListNotations.
Local Open Scope string_scope.
Open Scope Z_scope.

(** The members of a tile instance, solver.py 48-76. *)
Record tvars := {
  is_belt : lit; is_empty : lit; is_splitter : lit; is_underground_in : lit; is_underground_out : lit;
  is_splitter_head : lit; is_input : lit; is_output : lit;
  input_dir : dir -> lit; output_dir : dir -> lit; underground : dir -> lit;
  colour : list lit; colour_ux : list lit; colour_uy : list lit }.

(** iteration over the enum Direction. *)
Definition directions : list dir := [RIGHT; UP; LEFT; DOWN].

(** The arguments of Grid, solver.py 33-42, plus the state of the pool before
    the tiles are allocated ([gtop]; 0 for a new pool).  [glen = None] is an
    infinite underground length. *)
Record grid := {
  geo : geometry; gcolours : option Z; glen : option Z; gextras : list (string * template); gtop : Z }.

(** int.bit_length for a non-negative argument. *)
Definition bit_length (n : Z) : Z := if n =? 0 then 0 else Z.log2 n + 1.

(** solver.py 71: colour_bits. *)
Definition colour_bits (g : grid) : nat :=
  match gcolours g with None => 0%nat | Some c => Z.to_nat (bit_length (c - 1)) end.

(** solver.py 48-81: the composite template. *)
Definition tile_template (g : grid) : template :=
  TComposite
    ([("is_belt", TBool); ("is_empty", TBool); ("is_splitter", TBool); ("is_underground_in", TBool);
      ("is_underground_out", TBool); ("is_splitter_head", TBool); ("is_input", TBool); ("is_output", TBool);
      ("input_direction", TSized OneHot 4); ("output_direction", TSized OneHot 4);
      ("underground", TArray TBool [4%nat])] ++
     match gcolours g with
     | None => []
     | Some _ => [("colour", TSized (Number false) (colour_bits g));
                  ("colour_ux", TSized (Number false) (colour_bits g));
                  ("colour_uy", TSized (Number false) (colour_bits g))]
     end ++ gextras g)%list.

(** Number of variables of a tile (template.py 300-302, tile_size). *)
Definition tile_size (g : grid) : Z := Z.of_nat (variable_count (tile_template g)).

(** First variable of a tile minus one: tiles are allocated row by row
    (template.py 292). *)
Definition tile_base (g : grid) (p : Z * Z) : Z :=
  gtop g + (snd p * width (geo g) + fst p) * tile_size g.

(** The members of the tile whose variables start after [b], in the order of
    solver.py 48-76 (theorem C39 relates this to [instantiate]). *)
Definition tile_vars (bits : nat) (b : Z) : tvars := {|
  is_belt := b + 1; is_empty := b + 2; is_splitter := b + 3; is_underground_in := b + 4;
  is_underground_out := b + 5; is_splitter_head := b + 6; is_input := b + 7; is_output := b + 8;
  input_dir := fun d => b + 9 + dir_value d;
  output_dir := fun d => b + 13 + dir_value d;
  underground := fun d => b + 17 + dir_value d;
  colour := fresh (b + 20) bits;
  colour_ux := fresh (b + 20 + Z.of_nat bits) bits;
  colour_uy := fresh (b + 20 + 2 * Z.of_nat bits) bits |}.

(** template.py 369-371: the tile at a position. *)
Definition tile_at (g : grid) (p : Z * Z) : tvars := tile_vars (colour_bits g) (tile_base g p).

(** The variables of a tile after those of [tile_vars]: the extras. *)
Definition extras_base (g : grid) (p : Z * Z) : Z := tile_base g p + 20 + 3 * Z.of_nat (colour_bits g).

(** solver.py 60-67, 68: the aliases type and all_direction. *)
Definition tile_type (t : tvars) : list lit :=
  [is_belt t; is_empty t; is_splitter t; is_underground_in t; is_underground_out t].
Definition inputs (t : tvars) : list lit := map (input_dir t) directions.
Definition outputs (t : tvars) : list lit := map (output_dir t) directions.
Definition all_direction (t : tvars) : list lit := (inputs t ++ outputs t)%list.

(** Concatenation of clause lists that may raise. *)
Definition oflat {A} (f : A -> option cnf) (l : list A) : option cnf :=
  let* cs := omap f l in Some (List.concat cs).

(** del list[direction], solver.py 111-112. *)
Definition del_dir (f : dir -> lit) (d : dir) : list lit :=
  map f (filter (fun e => negb (dir_eqb e d)) directions).

(** solver.py 86-125: the clauses of one tile, without the colour bounds. *)
Definition tile_clauses (t : tvars) : cnf :=
  (quadratic_one (tile_type t) ++
   implies [is_empty t] (set_all_false (all_direction t)) ++
   implies [is_belt t] [inputs t; outputs t] ++
   implies [is_underground_in t] ([inputs t] ++ set_all_false (outputs t)) ++
   implies [is_underground_out t] ([outputs t] ++ set_all_false (inputs t)) ++
   implies [is_splitter t] [all_direction t] ++
   quadratic_amo (inputs t) ++
   quadratic_amo (outputs t) ++
   quadratic_amo [underground t RIGHT; underground t LEFT] ++
   quadratic_amo [underground t UP; underground t DOWN] ++
   [[- is_splitter_head t; is_splitter t]] ++
   flat_map (fun d =>
     implies [is_splitter t; input_dir t d] (set_all_false (del_dir (output_dir t) d)) ++
     implies [is_splitter t; output_dir t d] (set_all_false (del_dir (input_dir t) d))) directions ++
   flat_map (fun d =>
     quadratic_amo [input_dir t d; output_dir t (reverse d)] ++
     implies [is_splitter t; input_dir t d] [[- output_dir t (next d)]]) directions)%list.

(** solver.py 127-130: colours within range. *)
Definition colour_clauses (g : grid) (t : tvars) : option cnf :=
  match gcolours g with
  | None => Some []
  | Some c => oflat (set_maximum (c - 1)) [colour t; colour_ux t; colour_uy t]
  end.

(** solver.py 135-152: one line of the splitter pairing. *)
Definition splitter_side (a b : tvars) (side : dir -> lit) (d : dir) : cnf :=
  (implies [side d; is_splitter_head a] [[is_splitter b]; [- is_splitter_head b]] ++
   implies [side (reverse d); is_splitter a; - is_splitter_head a] [[is_splitter_head b]] ++
   implies [side d; is_splitter_head a] [[input_dir b d; output_dir b d]] ++
   implies [side (reverse d); is_splitter a; - is_splitter_head a]
     [[input_dir b (reverse d); output_dir b (reverse d)]])%list.
Definition splitter_line (g : grid) (d : dir) (line : (Z * Z) * option (Z * Z)) : cnf :=
  let a := tile_at g (fst line) in
  match snd line with
  | None =>
      [ [- input_dir a d; - is_splitter a; - is_splitter_head a];
        [- output_dir a d; - is_splitter a; - is_splitter_head a];
        [- input_dir a (reverse d); - is_splitter a; is_splitter_head a];
        [- output_dir a (reverse d); - is_splitter a; is_splitter_head a] ]
  | Some q =>
      let b := tile_at g q in
      (splitter_side a b (input_dir a) d ++ splitter_side a b (output_dir a) d)%list
  end.

(** solver.py 132-152. *)
Definition splitter_clauses (g : grid) : cnf :=
  flat_map (fun d => flat_map (splitter_line g d) (iterate_tile_lines2 (geo g) (dir_vec (next d)))) directions.

(** The pattern of solver.py 161-166 and its siblings: the flag holds exactly
    when one of the literals does. *)
Definition flag_clauses (flag : lit) (ls : list lit) : cnf :=
  (implies [flag] [ls] ++ flat_map (fun l => implies [l] [[flag]]) ls)%list.
Definition edge_flags (t : tvars) (ins outs : list dir) : cnf :=
  (flag_clauses (is_input t) (map (input_dir t) ins) ++
   flag_clauses (is_output t) (map (output_dir t) outs))%list.

(** solver.py 154-220. *)
Definition edge_clauses_at (g : grid) (p : Z * Z) : cnf :=
  let t := tile_at g p in
  let '(x, y) := p in
  if x =? 0 then
    if y =? 0 then edge_flags t [RIGHT; DOWN] [LEFT; UP]
    else if y =? height (geo g) - 1 then edge_flags t [RIGHT; UP] [LEFT; DOWN]
    else edge_flags t [RIGHT] [LEFT]
  else if x =? width (geo g) - 1 then
    if y =? 0 then edge_flags t [LEFT; DOWN] [RIGHT; UP]
    else if y =? height (geo g) - 1 then edge_flags t [LEFT; UP] [RIGHT; DOWN]
    else edge_flags t [LEFT] [RIGHT]
  else if y =? 0 then edge_flags t [DOWN] [UP]
  else if y =? height (geo g) - 1 then edge_flags t [UP] [DOWN]
  else [[- is_input t]; [- is_output t]].

(** solver.py 43-220: the constructor; the assertions of lines 43-44 and of
    template.py 281 are [None]. *)
Definition init_clauses (g : grid) : option cnf :=
  if negb match gcolours g with None => true | Some c => 1 <=? c end then None else
  if negb match glen g with None => true | Some l => 0 <=? l end then None else
  if negb ((0 <? width (geo g)) && (0 <? height (geo g))) then None else
  let* cs := oflat (fun p => let* cc := colour_clauses g (tile_at g p) in
                             Some (tile_clauses (tile_at g p) ++ cc)%list) (iterate_tiles (geo g)) in
  Some (cs ++ splitter_clauses g ++ flat_map (edge_clauses_at g) (iterate_tiles (geo g)))%list.

(** solver.py 222-245: set_tile (on the tile instance; the position assertion
    of get_tile_instance is left to the caller). *)
Definition set_tile_clauses (v : tvars) (t : tile) : option cnf :=
  match t with
  | Empty => Some [[is_empty v]]
  | Filler => Some [[is_empty v]]
  | Splitter d h =>
      Some [[is_splitter v]; [set_literal (is_splitter_head v) h]; [input_dir v d; output_dir v d]]
  | Belt _ _ | Underground _ _ =>
      Some ((match t with
             | Underground _ e => [[if e then is_underground_in v else is_underground_out v]]
             | _ => [[is_belt v]]
             end) ++
            match input_direction t with Some d => [[input_dir v d]] | None => [] end ++
            match output_direction t with Some d => [[output_dir v d]] | None => [] end)%list
  | _ => None
  end.
Definition set_tile (g : grid) (x y : Z) (t : tile) : option cnf :=
  if ((0 <=? x) && (0 <=? y)) && ((x <? width (geo g)) && (y <? height (geo g)))
  then set_tile_clauses (tile_at g (x, y)) t else None.

(** A parsed cell, as far as read_tile looks at it: the OneHot templates parse
    to the index of the first true literal. *)
Record cell := {
  c_belt : bool; c_empty : bool; c_splitter : bool; c_uin : bool; c_uout : bool; c_head : bool;
  c_in : option Z; c_out : option Z }.
Definition parse_tile (a : assignment) (t : tvars) : cell := {|
  c_belt := evl a (is_belt t); c_empty := evl a (is_empty t); c_splitter := evl a (is_splitter t);
  c_uin := evl a (is_underground_in t); c_uout := evl a (is_underground_out t);
  c_head := evl a (is_splitter_head t);
  c_in := first_hot 0 (map (evl a) (inputs t));
  c_out := first_hot 0 (map (evl a) (outputs t)) |}.

(** solver.py 250-253: None stays None; Direction(i) may raise. *)
Definition opt_direction (i : option Z) : option (option dir) :=
  match i with None => Some None | Some v => let* d := dir_of_value v in Some (Some d) end.

(** solver.py 247-272: read_tile; Belt(None, ...) raises in Belt.__post_init__
    (tile.py 84: [None.reverse]). *)
Definition read_tile (c : cell) : option tile :=
  let* i := opt_direction (c_in c) in
  let* o := opt_direction (c_out c) in
  if c_splitter c then
    let* d := match i with Some d => Some d | None => o end in Some (Splitter d (c_head c))
  else if c_empty c then Some Empty
  else if c_uin c then let* d := i in Some (Underground d true)
  else if c_uout c then let* d := o in Some (Underground d false)
  else if c_belt c then let* di := i in let* do_ := o in mk_belt di do_
  else None.

(** solver.py 247-253: the entries of a parsed cell that read_tile looks up. *)
Definition cell_of (p : parsed) : option cell :=
  match p with
  | PRec fs =>
      let flag name := match assoc name fs with Some (PBool b) => Some b | _ => None end in
      let direction name := match assoc name fs with Some (PNum n) => Some (Some n) | Some PNone => Some None | _ => None end in
      let* b := flag "is_belt" in
      let* e := flag "is_empty" in
      let* s := flag "is_splitter" in
      let* ui := flag "is_underground_in" in
      let* uo := flag "is_underground_out" in
      let* h := flag "is_splitter_head" in
      let* i := direction "input_direction" in
      let* o := direction "output_direction" in
      Some {| c_belt := b; c_empty := e; c_splitter := s; c_uin := ui; c_uout := uo; c_head := h; c_in := i; c_out := o |}
  | _ => None
  end.

(** template.py 452-455: FactorioGrid.parse_cell, the entry 'tile'. *)
Definition parse_cell (g : grid) (mapping : Z -> option bool) (i : instance) : option tile :=
  let* p := parse (tile_template g) i mapping in
  let* c := cell_of p in read_tile c.

(** template.py 288-292: the tiles of a grid. *)
Definition grid_tiles (g : grid) : list (list instance) :=
  fst (instantiate_rows (tile_template g) (Z.to_nat (height (geo g))) (Z.to_nat (width (geo g))) (gtop g)).

(** template.py 391-393: parse_solution (the tiles only). *)
Definition parse_solution (g : grid) (solution : list lit) : option (list (list tile)) :=
  omap (omap (parse_cell g (mapping_of solution))) (grid_tiles g).

(** solver.py 274-281: prevent_colour. *)
Definition prevent_colour (g : grid) (c : Z) : option cnf :=
  oflat (fun p =>
    let t := tile_at g p in
    if c =? 0 then
      let* n := set_not_number 0 (colour t) in Some (map (fun l => - l :: n) (all_direction t))
    else omap (set_not_number c) [colour t; colour_ux t; colour_uy t]) (iterate_tiles (geo g)).

(** template.py 370: the assertion of get_tile_instance. *)
Definition in_grid (g : grid) (x y : Z) : bool :=
  ((0 <=? x) && (0 <=? y)) && ((x <? width (geo g)) && (y <? height (geo g))).

(** solver.py 283-286: set_colour. *)
Definition set_colour (g : grid) (x y c : Z) : option cnf :=
  match gcolours g with
  | None => None
  | Some n => if (0 <=? c) && (c <? n) && in_grid g x y then set_number c (colour (tile_at g (x, y))) else None
  end.

(** solver.py 288-332: transport_quantity; the quantities are given as lists of
    literals per position (flatten already applied). *)
Definition transport_line (g : grid) (quantity quantity_ux quantity_uy : Z * Z -> list lit) (d : dir)
    (p : Z * Z) : option cnf :=
  match get_tile_instance_offset (geo g) (fst p) (snd p) (dx d) (dy d) with
  | None => Some []
  | Some q =>
      let a := tile_at g p in let b := tile_at g q in
      let ua := if is_horizontal d then quantity_ux p else quantity_uy p in
      let ub := if is_horizontal d then quantity_ux q else quantity_uy q in
      let* e1 := set_numbers_equal (quantity p) (quantity q) false in
      let* e2 := set_numbers_equal ua ub false in
      let* e3 := set_numbers_equal (quantity p) ub false in
      let* e4 := set_numbers_equal ua (quantity q) false in
      Some (implies [output_dir a d; - is_splitter a] e1 ++
            implies [underground a d] e2 ++
            implies (input_dir a d :: - is_splitter a :: invert_components (outputs a)) e3 ++
            implies (output_dir b d :: - is_splitter b :: invert_components (inputs b)) e4)%list
  end.
Definition transport_quantity (g : grid) (quantity quantity_ux quantity_uy : Z * Z -> list lit) : option cnf :=
  oflat (fun d => oflat (transport_line g quantity quantity_ux quantity_uy d) (iterate_tiles (geo g))) directions.

(** solver.py 334-337: prevent_bad_colouring. *)
Definition prevent_bad_colouring (g : grid) : option cnf :=
  match gcolours g with
  | None => Some []
  | Some c =>
      if c =? 1 then Some []
      else transport_quantity g (fun p => colour (tile_at g p)) (fun p => colour_ux (tile_at g p))
             (fun p => colour_uy (tile_at g p))
  end.

(** solver.py 340-347, 375-382: the edges argument. *)
Inductive edges := EBool (b : bool) | EPair (horisontal vertical : bool) | EFour (min_x min_y max_x max_y : bool).
Definition expand_edges (e : edges) : bool * bool * bool * bool :=
  match e with
  | EBool b => (b, b, b, b)
  | EPair h v => (h, v, h, v)
  | EFour a b c d => (a, b, c, d)
  end.

(** solver.py 349-372: one edge tile of block_underground_through_edges; the
    literals underground[0::2] or underground[1::2], the direction leaving the
    grid and its reverse. *)
Definition block_underground_at (t : tvars) (us : list dir) (leaving : dir) : cnf :=
  (set_all_false (map (underground t) us) ++
   implies [input_dir t leaving] [[- is_underground_in t]] ++
   implies [output_dir t (reverse leaving)] [[- is_underground_out t]])%list.
Definition block_underground_through_edges (g : grid) (e : edges) : cnf :=
  let '(min_x, min_y, max_x, max_y) := expand_edges e in
  let w := width (geo g) in let h := height (geo g) in
  ((if min_x then flat_map (fun y => block_underground_at (tile_at g (0, y)) [RIGHT; LEFT] LEFT) (range h) else []) ++
   (if max_x then flat_map (fun y => block_underground_at (tile_at g (w - 1, y)) [RIGHT; LEFT] RIGHT) (range h) else []) ++
   (if min_y then flat_map (fun x => block_underground_at (tile_at g (x, 0)) [UP; DOWN] UP) (range w) else []) ++
   (if max_y then flat_map (fun x => block_underground_at (tile_at g (x, h - 1)) [UP; DOWN] DOWN) (range w) else []))%list.

(** solver.py 383-406: one edge tile of block_belts_through_edges. *)
Definition block_belts_at (t : tvars) (leaving : dir) : cnf :=
  (set_all_false [input_dir t (reverse leaving); output_dir t leaving] ++
   [ - input_dir t leaving :: outputs t; - output_dir t (reverse leaving) :: inputs t ])%list.
Definition block_belts_through_edges (g : grid) (e : edges) : cnf :=
  let '(min_x, min_y, max_x, max_y) := expand_edges e in
  let w := width (geo g) in let h := height (geo g) in
  ((if min_x then flat_map (fun y => block_belts_at (tile_at g (0, y)) LEFT) (range h) else []) ++
   (if max_x then flat_map (fun y => block_belts_at (tile_at g (w - 1, y)) RIGHT) (range h) else []) ++
   (if min_y then flat_map (fun x => block_belts_at (tile_at g (x, 0)) UP) (range w) else []) ++
   (if max_y then flat_map (fun x => block_belts_at (tile_at g (x, h - 1)) DOWN) (range w) else []))%list.

(** solver.py 415-455: prevent_bad_undergrounding at one tile. *)
Definition undergrounding_at (g : grid) (d : dir) (p : Z * Z) : cnf :=
  let a := tile_at g p in
  let after := get_tile_instance_offset (geo g) (fst p) (snd p) (dx d) (dy d) in
  let before := get_tile_instance_offset (geo g) (fst p) (snd p) (- dx d) (- dy d) in
  (implies [is_underground_in a; input_dir a d] [[- underground a d]; [- underground a (reverse d)]] ++
   implies [is_underground_out a; output_dir a d] [[- underground a d]; [- underground a (reverse d)]] ++
   match after with
   | Some q => implies [is_underground_in a; input_dir a d] [[underground (tile_at g q) d]]
   | None => []
   end ++
   match before with
   | Some q => implies [is_underground_out a; output_dir a d] [[underground (tile_at g q) d]]
   | None => []
   end ++
   match after with
   | Some q => let b := tile_at g q in
       implies [underground a d; - underground b d] [[is_underground_out b]; [output_dir b d]]
   | None => []
   end ++
   match before with
   | Some q => let b := tile_at g q in
       implies [underground a d; - underground b d] [[is_underground_in b]; [input_dir b d]]
   | None => []
   end)%list.
(** solver.py 408-455. *)
Definition prevent_bad_undergrounding (g : grid) : cnf :=
  flat_map (fun d => flat_map (undergrounding_at g d) (iterate_tiles (geo g))) directions.

(** solver.py 467-476: the clause of one tile, [None] when the line leaves the
    grid (break). *)
Definition length_clause (g : grid) (l : Z) (d : dir) (p : Z * Z) : option clause :=
  omap (fun i => let* q := get_tile_instance_offset (geo g) (fst p) (snd p) (dx d * i) (dy d * i) in
                 Some (- underground (tile_at g q) d)) (range (l + 1)).
(** solver.py 457-476: enforce_maximum_underground_length. *)
Definition enforce_maximum_underground_length (g : grid) : option cnf :=
  match glen g with
  | None => Some []
  | Some l =>
      if negb (1 <=? l) then None else
      Some (flat_map (fun d => flat_map (fun p =>
              match length_clause g l d p with Some c => [c] | None => [] end) (iterate_tiles (geo g))) directions)
  end.

(** solver.py 484-496: one line of prevent_intersection. *)
Definition intersection_line (g : grid) (d : dir) (line : (Z * Z) * option (Z * Z)) : cnf :=
  match snd line with
  | None => []
  | Some q =>
      let a := tile_at g (fst line) in let b := tile_at g q in
      (literals_same (output_dir a d) (input_dir b d) ++
       implies [input_dir a d; is_splitter a; - is_splitter b]
         [ [- input_dir b (next d); - output_dir b (next d)];
           [- input_dir b (prev d); - output_dir b (prev d)];
           [- input_dir b (next d); - output_dir b d];
           [- input_dir b (prev d); - output_dir b d];
           [- input_dir b (reverse d); - output_dir b (next d)];
           [- input_dir b (reverse d); - output_dir b (prev d)] ])%list
  end.
(** solver.py 478-496: prevent_intersection. *)
Definition prevent_intersection (g : grid) : cnf :=
  flat_map (fun d => flat_map (intersection_line g d) (iterate_tile_lines2 (geo g) (dir_vec d))) directions.

(** solver.py 498-508: the important variables passed on by Grid.itersolve (a
    set; here a list).  Without colours the colour members do not exist
    (AttributeError). *)
Definition important_variables (g : grid) (given : list lit) (ignore_colour : bool) : option (list lit) :=
  if negb ignore_colour && match gcolours g with None => true | _ => false end then None else
  Some (given ++ flat_map (fun p =>
    let t := tile_at g p in
    all_direction t ++ [is_splitter t] ++
    (if ignore_colour then [] else colour t ++ colour_ux t ++ colour_uy t)) (iterate_tiles (geo g)))%list.
