(** Model of blueprint.py and blueprint_book.py. *)
From Coq Require Import ZArith List Bool String.
From Verif Require Import Spec_Tile M_Json M_Tile.
Import ListNotations.
Local Open Scope string_scope.
Open Scope Z_scope.

(** blueprint.py 17-25: TransportBeltLevel. *)
Inductive level := NORMAL | FAST | EXPRESS.
Definition levels : list level := [NORMAL; FAST; EXPRESS].
Definition belt_variant (l : level) : string :=
  match l with NORMAL => "transport-belt" | FAST => "fast-transport-belt" | EXPRESS => "express-transport-belt" end.
Definition underground_variant (l : level) : string :=
  match l with NORMAL => "underground-belt" | FAST => "fast-underground-belt" | EXPRESS => "express-underground-belt" end.
Definition splitter_variant (l : level) : string :=
  match l with NORMAL => "splitter" | FAST => "fast-splitter" | EXPRESS => "express-splitter" end.

(** blueprint.py 28-33: struct packing, as lists of bytes, least significant
    first (struct.error when a field does not fit -> None). *)
Fixpoint le_bytes (n : nat) (v : Z) : list Z :=
  match n with O => [] | S m => v mod 256 :: le_bytes m (v / 256) end.
Fixpoint of_bytes (l : list Z) : Z :=
  match l with [] => 0 | b :: t => b + 256 * of_bytes t end.
Definition pack_field (n : nat) (v : Z) : option (list Z) :=
  if (0 <=? v) && (v <? 256 ^ Z.of_nat n) then Some (le_bytes n v) else None.

Definition encode_factorio_version (major minor patch developer : Z) : option Z :=
  let* a := pack_field 2 major in let* b := pack_field 2 minor in
  let* c := pack_field 2 patch in let* d := pack_field 2 developer in
  Some (of_bytes (a ++ b ++ c ++ d)%list).

Definition decode_factorio_version (v : Z) : option (Z * Z * Z * Z) :=
  let* l := pack_field 8 v in
  let f i := of_bytes (firstn 2 (skipn (2 * i) l)) in
  Some (f 0%nat, f 1%nat, f 2%nat, f 3%nat).

(** An entity dictionary. Simplifications: a record of the keys the code reads
    or writes; positions, multiples of one half, are stored doubled
    (floating point arithmetic on them is exact). *)
Record entity := {
  e_number : Z;
  e_x2 : Z; e_y2 : Z;
  e_name : option string;       (** absent for an inserter of unknown kind *)
  e_direction : option Z;       (** absent means 0 *)
  e_type : option string
}.

(** blueprint.py 60: np.ndenumerate: cells ((x, y), tile) in row-major order. *)
Fixpoint enum_row (x y : Z) (r : list tile) : list ((Z * Z) * tile) :=
  match r with [] => [] | t :: r' => ((x, y), t) :: enum_row (x + 1) y r' end.
Fixpoint enum_rows (y : Z) (g : list (list tile)) : list ((Z * Z) * tile) :=
  match g with [] => [] | r :: g' => (enum_row 0 y r ++ enum_rows (y + 1) g')%list end.
Definition enum_grid (g : list (list tile)) := enum_rows 0 g.

(** blueprint.py 68-70 and similar: the direction key is left out when 0. *)
Definition dir_key (d : dir) : option Z :=
  if factorio_direction d =? 0 then None else Some (factorio_direction d).

(** blueprint.py 61-104: one iteration of the loop. None: RuntimeError;
    Some None: no entity. *)
Definition tile_entity (l : level) (n : Z) (c : (Z * Z) * tile) : option (option entity) :=
  let '((x, y), t) := c in
  match t with
  | Empty | Filler => Some None
  | Belt _ o => Some (Some {| e_number := n; e_x2 := 2 * x + 1; e_y2 := 2 * y + 1;
      e_name := Some (belt_variant l); e_direction := dir_key o; e_type := None |})
  | Underground d e => Some (Some {| e_number := n; e_x2 := 2 * x + 1; e_y2 := 2 * y + 1;
      e_name := Some (underground_variant l); e_direction := dir_key d;
      e_type := Some (if e then "input" else "output") |})
  | Splitter d head =>
    if head then Some (Some {| e_number := n; e_x2 := 2 * x + 1 + dx (next d); e_y2 := 2 * y + 1 + dy (next d);
      e_name := Some (splitter_variant l); e_direction := dir_key d; e_type := None |})
    else Some None
  | Inserter d k => Some (Some {| e_number := n; e_x2 := 2 * x + 1; e_y2 := 2 * y + 1;
      e_name := if k =? 0 then Some "inserter" else if k =? 1 then Some "long-handed-inserter" else None;
      e_direction := dir_key (reverse d); e_type := None |})
  | Assembler _ _ => None
  end.

(** blueprint.py 57-111: make_blueprint, the entity list (the constant template
    and the label around it are not modelled). *)
Fixpoint make_entities (l : level) (n : Z) (cs : list ((Z * Z) * tile)) : option (list entity) :=
  match cs with
  | [] => Some []
  | c :: r =>
    let* oe := tile_entity l n c in
    match oe with
    | None => make_entities l n r
    | Some e => let* es := make_entities l (n + 1) r in Some (e :: es)
    end
  end.
Definition make_blueprint (l : level) (g : list (list tile)) : option (list entity) :=
  make_entities l 1 (enum_grid g).

(** Dictionaries keyed by positions, most recent assignment first. *)
Definition pos_eqb (p q : Z * Z) : bool := (fst p =? fst q) && (snd p =? snd q).
Fixpoint lookup {A} (p : Z * Z) (l : list ((Z * Z) * A)) : option A :=
  match l with [] => None | (q, a) :: r => if pos_eqb p q then Some a else lookup p r end.

(** Python's str.startswith. *)
Definition starts_with (p s : string) : bool := String.prefix p s.

Definition inserter_names : list string :=
  ["burner-inserter"; "inserter"; "fast-inserter"; "filter-inserter"; "stack-inserter"; "stack-filter-inserter"].

(** blueprint.py 151-180: the assignments made by one entity, last one first
    (KeyError / RuntimeError -> None). math.floor of half the doubled
    coordinate is division by 2. *)
Definition import_entity (e : entity) : option (list ((Z * Z) * tile)) :=
  let* name := e_name e in
  let* d := from_factorio (match e_direction e with Some f => f | None => 0 end) in
  let fp := (e_x2 e / 2, e_y2 e / 2) in
  if existsb (fun l => String.eqb name (splitter_variant l)) levels then
    let (vx, vy) := dir_vec (next d) in
    Some [ (((e_x2 e + vx) / 2, (e_y2 e + vy) / 2), Splitter d false);
           (((e_x2 e - vx) / 2, (e_y2 e - vy) / 2), Splitter d true) ]
  else if existsb (fun l => String.eqb name (belt_variant l)) levels then
    let* b := mk_belt d d in Some [(fp, b)]
  else if existsb (fun l => String.eqb name (underground_variant l)) levels then
    let* ty := e_type e in Some [(fp, Underground d (String.eqb ty "input"))]
  else if existsb (String.eqb name) inserter_names then Some [(fp, Inserter (reverse d) 0)]
  else if String.eqb name "long-handed-inserter" then Some [(fp, Inserter (reverse d) 1)]
  else if starts_with "assembling-machine-" name then
    Some (rev (flat_map (fun i => map (fun j => ((fst fp - 1 + i, snd fp - 1 + j), Assembler i j)) [0; 1; 2]) [0; 1; 2]))
  else if String.eqb name "wooden-chest" then Some [(fp, Filler)]
  else None.

(** blueprint.py 149-180: the whole dictionary. *)
Fixpoint import_entities (acc : list ((Z * Z) * tile)) (es : list entity) : option (list ((Z * Z) * tile)) :=
  match es with
  | [] => Some acc
  | e :: r => let* l := import_entity e in import_entities (l ++ acc)%list r
  end.

(** min / max of a generator (ValueError on nothing -> None). *)
Definition min_list (l : list Z) : option Z :=
  match l with [] => None | x :: r => Some (fold_left Z.min r x) end.
Definition max_list (l : list Z) : option Z :=
  match l with [] => None | x :: r => Some (fold_left Z.max r x) end.

(** blueprint.py 119-137: the scan over the four directions, [feeds d] telling
    whether the neighbour on the side items moving in direction [d] come from
    outputs in direction [d]. *)
Fixpoint scan_inputs (feeds : dir -> bool) (ds : list dir) (cur : option dir) : option dir :=
  match ds with
  | [] => cur
  | d :: r => if feeds d then match cur with None => scan_inputs feeds r (Some d) | Some _ => None end
              else scan_inputs feeds r cur
  end.

Definition all_dirs : list dir := [RIGHT; UP; LEFT; DOWN].

(** blueprint.py 121-131: the test made for one neighbour of cell (x, y) of a
    [w] x [h] array. *)
Definition feeds_cell (T : Z * Z -> tile) (w h x y : Z) (d : dir) : bool :=
  let x1 := x - dx d in let y1 := y - dy d in
  if (x1 <? 0) || (w <=? x1) || (y1 <? 0) || (h <=? y1) then false
  else match output_direction (T (x1, y1)) with Some o => dir_eqb o d | None => false end.

(** blueprint.py 115-142: one iteration, on the array as a function. *)
Definition resolve_cell (w h : Z) (T : Z * Z -> tile) (p : Z * Z) : option (Z * Z -> tile) :=
  match T p with
  | Belt _ o =>
    let i := match scan_inputs (feeds_cell T w h (fst p) (snd p)) all_dirs None with
             | Some i => i | None => o end in
    let* b := mk_belt i o in
    Some (fun q => if pos_eqb q p then b else T q)
  | _ => Some T
  end.

Fixpoint resolve_cells (w h : Z) (T : Z * Z -> tile) (ps : list (Z * Z)) : option (Z * Z -> tile) :=
  match ps with
  | [] => Some T
  | p :: r => let* T' := resolve_cell w h T p in resolve_cells w h T' r
  end.

(** All cells of a [w] x [h] array in row-major order. *)
Definition zrange (n : Z) : list Z := map Z.of_nat (seq 0 (Z.to_nat n)).
Definition cells (w h : Z) : list (Z * Z) :=
  flat_map (fun y => map (fun x => (x, y)) (zrange w)) (zrange h).

(** The array as a list of rows. *)
Definition rows_of (w h : Z) (T : Z * Z -> tile) : list (list tile) :=
  map (fun y => map (fun x => T (x, y)) (zrange w)) (zrange h).

(** blueprint.py 145-199: import_blueprint on the list of entities. *)
Definition import_blueprint (es : list entity) : option (list (list tile)) :=
  match es with
  | [] => Some []
  | _ =>
    let* d := import_entities [] es in
    let* min_x := min_list (map (fun c => fst (fst c)) d) in
    let* min_y := min_list (map (fun c => snd (fst c)) d) in
    let d' := map (fun c => ((fst (fst c) - min_x, snd (fst c) - min_y), snd c)) d in
    let* mx := max_list (map (fun c => fst (fst c)) d') in
    let* my := max_list (map (fun c => snd (fst c)) d') in
    let w := mx + 1 in let h := my + 1 in
    let T := fun p => match lookup p d' with Some t => t | None => Empty end in
    let* T' := resolve_cells w h T (cells w h) in
    Some (rows_of w h T')
  end.

(** blueprint_book.py 14-25: pack_book; blueprints are JSON objects (TypeError
    otherwise -> None). *)
Fixpoint set_indices (i : Z) (l : list json) : option (list json) :=
  match l with
  | [] => Some []
  | b :: r => let* b' := jset "index" (JNum i) b in let* r' := set_indices (i + 1) r in Some (b' :: r')
  end.
Definition pack_book (blueprints : list json) (label : option string) : option json :=
  let body := [("item", JStr "blueprint-book"); ("active_index", JNum 0); ("version", JNum 281474976710656)] in
  let body := match label with Some s => aset "label" (JStr s) body | None => body end in
  let* bs := set_indices 0 blueprints in
  Some (JObj [("blueprint_book", JObj (aset "blueprints" (JArr bs) body))]).

(** blueprint_book.py 7-8: unpack_book. *)
Definition unpack_book (j : json) : option json :=
  let* b := jget "blueprint_book" j in jget "blueprints" b.
