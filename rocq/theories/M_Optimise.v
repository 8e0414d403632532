(** Model of factorio_sat/optimisations.py: constraints that rule out layouts
    which are not worth finding. *)
From Coq Require Import ZArith List Bool.
From Verif Require Import Spec_Cnf Spec_Tile M_Json M_Tile M_Util M_Template M_Grid M_Balancer.
Import ListNotations.
Open Scope Z_scope.

(** grid.get_tile_instance_offset(x, y, ox, oy), as a position. *)
Definition offset (g : grid) (p : Z * Z) (ox oy : Z) : option (Z * Z) :=
  get_tile_instance_offset (geo g) (fst p) (snd p) ox oy.
(** The offset [i] steps in direction [d] and [j] steps in direction [t]. *)
Definition offset2 (g : grid) (p : Z * Z) (d : dir) (i : Z) (t : dir) (j : Z) : option (Z * Z) :=
  offset g p (dx d * i + dx t * j) (dy d * i + dy t * j).
(** The tiles [i] steps from [p] in direction [d], for [i] in range(n). *)
Definition line_of (g : grid) (p : Z * Z) (d : dir) (n : Z) : list (option (Z * Z)) :=
  map (fun i => offset g p (dx d * i) (dy d * i)) (range n).
(** any(tile is None for tile in tiles): [None]; otherwise the tiles. *)
Definition present_tiles (g : grid) (l : list (option (Z * Z))) : option (list tvars) :=
  omap (fun o => let* q := o in Some (tile_at g q)) l.
(** range(a, b) *)
Definition range_from (a b : Z) : list Z := map (fun i => a + i) (range (b - a)).

(** optimisations.py 11 and 273: min(underground_length, max(width, height) - 2). *)
Definition useful_length (g : grid) : Z :=
  let m := Z.max (width (geo g)) (height (geo g)) - 2 in
  match glen g with Some l => Z.min l m | None => m end.

(** optimisations.py 25-40: the clause for the tiles start, *middle, end. *)
Definition empty_clause (d : dir) (start : tvars) (middle : list tvars) (last_ : tvars) : clause :=
  ([- is_underground_in start; - input_dir start d] ++ map (fun t => - is_empty t) middle ++
   [- is_underground_out last_; - output_dir last_ d])%list.
(** optimisations.py 17-40: the loop over [i]; [middle] holds the tiles after
    the start collected so far (break when a tile is missing). *)
Fixpoint empty_loop (g : grid) (d : dir) (p : Z * Z) (middle : list tvars) (is_ : list Z) : cnf :=
  match is_ with
  | [] => []
  | i :: r =>
      match offset g p (dx d * i) (dy d * i) with
      | None => []
      | Some q =>
          ((match middle with [] => [] | _ => [empty_clause d (tile_at g p) middle (tile_at g q)] end) ++
           empty_loop g d p (middle ++ [tile_at g q]) r)%list
      end
  end.
(** optimisations.py 10-40. *)
Definition prevent_empty_along_underground (g : grid) : cnf :=
  flat_map (fun d => flat_map (fun p => empty_loop g d p [] (range_from 1 (useful_length g + 2))) (iterate_tiles (geo g))) directions.

(** optimisations.py 43-77. *)
Definition small_loops_at (g : grid) (x y : Z) : cnf :=
  let t00 := tile_at g (x, y) in let t01 := tile_at g (x, y + 1) in
  let t10 := tile_at g (x + 1, y) in let t11 := tile_at g (x + 1, y + 1) in
  [ [- input_dir t00 LEFT; - output_dir t00 DOWN; - input_dir t01 DOWN; - output_dir t01 RIGHT;
     - input_dir t11 RIGHT; - output_dir t11 UP; - input_dir t10 UP; - output_dir t10 LEFT];
    [- input_dir t00 UP; - output_dir t00 RIGHT; - input_dir t10 RIGHT; - output_dir t10 DOWN;
     - input_dir t11 DOWN; - output_dir t11 LEFT; - input_dir t01 LEFT; - output_dir t01 UP] ].
Definition prevent_small_loops (g : grid) : cnf :=
  flat_map (fun x => flat_map (small_loops_at g x) (range (height (geo g) - 1))) (range (width (geo g) - 1)).

(** A straight belt in direction [d], negated (optimisations.py 101-107). *)
Definition not_straight (t : tvars) (d : dir) : clause := [- input_dir t d; - output_dir t d; - is_belt t].

(** optimisations.py 80-108. *)
Definition glue_at (g : grid) (p : Z * Z) (d : dir) : cnf :=
  if dir_eqb d RIGHT && ((fst p =? 1) || (fst p =? width (geo g) - 2)) then [] else
  match offset g p (- dx d) (- dy d), offset g p (- dx d + dx (next d)) (- dy d + dy (next d)) with
  | Some q0, Some q1 =>
      let t := tile_at g p in
      [([- is_splitter_head t; - input_dir t d] ++ not_straight (tile_at g q0) d ++ not_straight (tile_at g q1) d)%list]
  | _, _ => []
  end.
Definition glue_splitters (g : grid) : cnf :=
  flat_map (fun p => flat_map (glue_at g p) directions) (iterate_tiles (geo g)).

(** The bounds of the region, optimisations.py 134-137 and 178-181. *)
Definition upper (size : Z) (m : option Z) : Z := match m with Some v => v | None => size - 1 end.
(** optimisations.py 144-147 and 189-192: the test of the far end. *)
Definition out_of_region (min_x min_y max_x max_y fx fy : Z) : bool :=
  (max_x <? fx) || (max_y <? fy) || (fx <? min_x) || (fy <? min_y).
(** The positions for x in range(min_x, max_x + 1), y in range(min_y, max_y + 1). *)
Definition region (min_x min_y max_x max_y : Z) : list (Z * Z) :=
  flat_map (fun x => map (fun y => (x, y)) (range_from min_y (max_y + 1))) (range_from min_x (max_x + 1)).

(** optimisations.py 152-170; the clause of 163-170 names the output direction
    of the second tile twice, as the source does. *)
Definition expand_infinite_clauses (d : dir) (t0 t1 : tvars) : cnf :=
  [ (not_straight t0 d ++ [- is_underground_in t1; - input_dir t1 d])%list;
    ([- is_underground_out t0; - output_dir t1 d] ++ not_straight t1 d)%list ].
(** optimisations.py 133-170; a failing assertion (150) is [None]. *)
Definition expand_underground_infinite (g : grid) (min_x min_y : Z) (mx my : option Z) : option cnf :=
  let max_x := upper (width (geo g)) mx in let max_y := upper (height (geo g)) my in
  oflat (fun p => oflat (fun d =>
    if out_of_region min_x min_y max_x max_y (fst p + dx d * 1) (snd p + dy d * 1) then Some [] else
    let* ts := present_tiles g (line_of g p d 2) in
    match ts with [t0; t1] => Some (expand_infinite_clauses d t0 t1) | _ => None end) directions)
    (region min_x min_y max_x max_y).

(** optimisations.py 197-221: the tiles are numbered 0 .. underground_length + 1;
    [tiles[2:-1]] and [tiles[1:-2]]. *)
Definition expand_clauses (d : dir) (ts : list tvars) : option cnf :=
  match ts with
  | t0 :: t1 :: rest =>
      let u t := underground t d in
      match rev ts with
      | z0 :: z1 :: _ =>
          Some [ (not_straight t0 d ++ [u t1] ++ map (fun t => - u t) (removelast rest) ++ [u z0])%list;
                 ([u t0] ++ map (fun t => - u t) (removelast (removelast (t1 :: rest))) ++ [u z1] ++ not_straight z0 d)%list ]
      | _ => None
      end
  | _ => None
  end.
(** optimisations.py 173-221; a failing assertion (195) is [None]. *)
Definition expand_underground (g : grid) (min_x min_y : Z) (mx my : option Z) : option cnf :=
  match glen g with
  | None => expand_underground_infinite g min_x min_y mx my
  | Some l =>
      let max_x := upper (width (geo g)) mx in let max_y := upper (height (geo g)) my in
      oflat (fun ul => oflat (fun p => oflat (fun d =>
        if out_of_region min_x min_y max_x max_y (fst p + dx d * (ul + 1)) (snd p + dy d * (ul + 1)) then Some [] else
        let* ts := present_tiles g (line_of g p d (ul + 2)) in expand_clauses d ts) directions)
        (region min_x min_y max_x max_y)) (range_from 2 (l + 1))
  end.

(** for tangent in (direction.next, direction.prev) *)
Definition tangents (d : dir) : list dir := [next d; prev d].

(** optimisations.py 224-254. *)
Definition hooks_at (g : grid) (p : Z * Z) (d t : dir) : cnf :=
  match offset g p (dx d) (dy d), offset g p (dx t) (dy t), offset g p (dx d + dx t) (dy d + dy t) with
  | Some p01, Some p10, Some p11 =>
      let t00 := tile_at g p in let t01 := tile_at g p01 in let t10 := tile_at g p10 in let t11 := tile_at g p11 in
      flat_map (fun i => map (fun o =>
        [- is_belt t00; - input_dir t00 i; - output_dir t00 d; - output_dir t01 t; - output_dir t11 (reverse d);
         - is_belt t10; - output_dir t10 o]) [t; reverse d]) [d; t]
  | _, _, _ => []
  end.
Definition prevent_belt_hooks (g : grid) : cnf :=
  flat_map (fun p => flat_map (fun d => flat_map (hooks_at g p d) (tangents d)) directions) (iterate_tiles (geo g)).

(** optimisations.py 257-269: get_mergeable_underground_variations. *)
Definition mergeable_variations (ul : Z) : list (list bool) :=
  if ul <? 4 then [] else
  map (fun o => ([false] ++ repeat true (Z.to_nat o) ++ [false; false] ++ repeat true (Z.to_nat (ul - o - 2)) ++ [false])%list)
    (range_from 1 (ul - 2)).
(** optimisations.py 272-285. *)
Definition mergeable_at (g : grid) (ul : Z) (p : Z * Z) (d : dir) : cnf :=
  match present_tiles g (line_of g p d (ul + 2)) with
  | None => []
  | Some ts => map (fun v => map (fun tb => - set_literal (underground (fst tb) d) (snd tb)) (combine ts v)) (mergeable_variations ul)
  end.
Definition prevent_mergeable_underground (g : grid) : cnf :=
  flat_map (fun ul => flat_map (fun p => flat_map (mergeable_at g ul p) directions) (iterate_tiles (geo g)))
    (range_from 4 (useful_length g + 1)).

(** optimisations.py 288-320; tiles[j, i] lies [i] steps along [d] and [j]
    along [t]. *)
Definition semicircles_at (g : grid) (p : Z * Z) (d t : dir) : cnf :=
  match offset2 g p d 0 t 0, offset2 g p d 1 t 0, offset2 g p d 2 t 0,
        offset2 g p d 0 t 1, offset2 g p d 1 t 1, offset2 g p d 2 t 1 with
  | Some p00, Some p01, Some p02, Some p10, Some p11, Some p12 =>
      let t00 := tile_at g p00 in let t01 := tile_at g p01 in let t02 := tile_at g p02 in
      let t10 := tile_at g p10 in let t11 := tile_at g p11 in let t12 := tile_at g p12 in
      flat_map (fun i => map (fun o =>
        ([- input_dir t00 i] ++ (if dir_eqb t i then [is_splitter t00] else []) ++ all_direction t01 ++
         [- input_dir t02 (reverse t); - output_dir t02 o] ++ (if dir_eqb (reverse t) o then [is_splitter t02] else []) ++
         [- input_dir t10 t; - input_dir t11 d; is_splitter t11; - input_dir t12 d])%list) [reverse t; d]) [d; t]
  | _, _, _, _, _, _ => []
  end.
Definition prevent_semicircles (g : grid) : cnf :=
  flat_map (fun p => flat_map (fun d => flat_map (semicircles_at g p d) (tangents d)) directions) (iterate_tiles (geo g)).

(** optimisations.py 323-386. *)
Definition underground_hook_at (g : grid) (p : Z * Z) (d t : dir) : cnf :=
  match offset g p (dx d) (dy d), offset g p (- dx d) (- dy d),
        offset g p (- dx t - dx d) (- dy t - dy d), offset g p (- dx t) (- dy t) with
  | Some pe, Some pa, Some pb, Some pc =>
      let te := tile_at g pe in let tt := tile_at g p in
      let ta := tile_at g pa in let tb := tile_at g pb in let tc := tile_at g pc in
      (map (fun i => (all_direction te ++ [- underground te d; underground tt d; - input_dir ta t;
                       - input_dir tb (reverse d); - input_dir tc i; is_splitter tc])%list) [reverse d; t] ++
       map (fun o => (all_direction te ++ [- underground te (reverse d); underground tt (reverse d); - output_dir ta (reverse t);
                       - output_dir tb d; - output_dir tc o; is_splitter tc])%list) [d; reverse t])%list
  | _, _, _, _ => []
  end.
Definition prevent_underground_hook (g : grid) : cnf :=
  flat_map (fun p => flat_map (fun d => flat_map (underground_hook_at g p d) (tangents d)) directions) (iterate_tiles (geo g)).

(** The blocks all of whose four tiles exist: (block == None).any(). *)
Definition full_block (b : list (list (option (Z * Z)))) : option ((Z * Z) * (Z * Z) * (Z * Z) * (Z * Z)) :=
  match b with
  | [[Some a; Some b]; [Some c; Some d]] => Some (a, b, c, d)
  | _ => None
  end.
(** for block in grid.iterate_tile_blocks(c, 2, r, 2, ...): the four tiles are
    block[0, 0], block[0, 1], block[1, 0], block[1, 1]. *)
Definition for_blocks (g : grid) (c r : dir) (max_x : option Z) (f : tvars -> tvars -> tvars -> tvars -> cnf) : cnf :=
  match iterate_tile_blocks (geo g) (dir_vec c) 2 (dir_vec r) 2 None None max_x None with
  | None => []
  | Some bs => flat_map (fun b => match full_block b with
                                  | Some (p00, p01, p10, p11) => f (tile_at g p00) (tile_at g p01) (tile_at g p10) (tile_at g p11)
                                  | None => []
                                  end) bs
  end.

(** optimisations.py 389-408. *)
Definition zigzag_clauses (d t : dir) (t00 t01 t10 t11 : tvars) : cnf :=
  [([- input_dir t00 d; - output_dir t00 t] ++ all_direction t01 ++ [- output_dir t10 d; - output_dir t11 t])%list].
Definition prevent_zigzags (g : grid) : cnf :=
  flat_map (fun d => flat_map (fun t => for_blocks g d t None (zigzag_clauses d t)) (tangents d)) directions.

(** l[start::step]. *)
Definition every {A} (start step : nat) (l : list A) : list A :=
  map snd (filter (fun ix => Nat.leb start (fst ix) && Nat.eqb ((fst ix - start) mod step)%nat 0) (indexed l)).

(** optimisations.py 411-429: what one pair of tiles appends to the two lists. *)
Definition symmetry_top (t : tvars) : list lit :=
  (every 0 2 (all_direction t) ++ tile_type t ++ every 1 4 (all_direction t) ++ every 3 4 (all_direction t))%list.
Definition symmetry_bottom (t : tvars) : list lit :=
  (every 0 2 (all_direction t) ++ tile_type t ++ every 3 4 (all_direction t) ++ every 1 4 (all_direction t))%list.
(** The lists after the rows [0 .. dy]; a row outside the grid raises. *)
Definition symmetry_row (g : grid) (dy : Z) : option (list lit * list lit) :=
  if in_grid g 0 dy && in_grid g 0 (height (geo g) - 1 - dy)
  then Some (flat_map (fun x => symmetry_top (tile_at g (x, dy))) (range (width (geo g))),
             flat_map (fun x => symmetry_bottom (tile_at g (x, height (geo g) - 1 - dy))) (range (width (geo g))))
  else None.
Fixpoint symmetry_loop (g : grid) (top bot : list lit) (dys : list Z) : gen :=
  match dys with
  | [] => pure (Some [])
  | y :: r => fun v =>
      let* (t, b) := symmetry_row g y in
      let* (cs, v1) := break_symmetry (top ++ t)%list (bot ++ b)%list v in
      let* (cs', v2) := symmetry_loop g (top ++ t)%list (bot ++ b)%list r v1 in
      Some ((cs ++ cs')%list, v2)
  end.
Definition break_vertical_symmetry (g : grid) : gen :=
  symmetry_loop g [] [] (range (Z.max 2 (height (geo g) / 2))).

(** optimisations.py 432-450: break_horisontal_symmetry. *)
Definition horisontal_columns (g : grid) (min_x max_x dx : Z) : option (list lit * list lit) :=
  if in_grid g (min_x + dx) 0 && in_grid g (max_x - dx) 0
  then Some (flat_map (fun y => let t := tile_at g (min_x + dx, y) in (inputs t ++ outputs t ++ tile_type t)%list) (range (height (geo g))),
             flat_map (fun y => let t := tile_at g (max_x - dx, y) in (outputs t ++ inputs t ++ tile_type t)%list) (range (height (geo g))))
  else None.
Definition break_horisontal_symmetry (g : grid) (min_x : Z) (mx : option Z) : gen := fun v =>
  let max_x := upper (width (geo g)) mx in
  let* cols := omap (horisontal_columns g min_x max_x) (range (Z.min 2 ((max_x - min_x + 1) / 2))) in
  break_symmetry (flat_map fst cols) (flat_map snd cols) v.

(** optimisations.py 453-517: prevent_spirals.  The first tile of a block is set
    to None before the test, so no block passes it; [f] stands for the clauses
    of lines 464-517. *)
Definition without_first (b : list (list (option (Z * Z)))) : list (list (option (Z * Z))) :=
  match b with (_ :: r) :: rs => (None :: r) :: rs | _ => b end.
Definition spiral_clauses (g : grid) (f : dir -> dir -> list (list (option (Z * Z))) -> cnf) : cnf :=
  flat_map (fun d => flat_map (fun a =>
    match iterate_tile_blocks (geo g) (dir_vec a) 3 (dir_vec d) 3 None None None None with
    | None => []
    | Some bs => flat_map (fun b => let b' := without_first b in
                   if existsb (existsb (fun o => match o with None => true | Some _ => false end)) b' then [] else f d a b') bs
    end) (tangents d)) directions.

(** optimisations.py 520-538. *)
Definition parallel_clauses (d a : dir) (head : bool) (t00 t01 t10 t11 : tvars) : cnf :=
  map (fun i => invert_components
    ([input_dir t00 i; output_dir t00 d] ++ (if dir_eqb i d then [- is_splitter t00] else []) ++
     [output_dir t10 a; is_splitter t11; set_literal (is_splitter_head t11) head])%list) [d; a].
Definition prevent_belt_parallel_splitter (g : grid) : cnf :=
  flat_map (fun d => flat_map (fun ah => for_blocks g d (fst ah) None (parallel_clauses d (fst ah) (snd ah)))
    [(next d, true); (prev d, false)]) directions.

(** optimisations.py 541-577. *)
Definition partial_clauses (d : dir) (t00 t01 t10 t11 : tvars) : cnf :=
  let straight t := [input_dir t d; output_dir t d; is_belt t] in
  [ invert_components ([input_dir t00 d; is_splitter_head t00; - input_dir t10 d] ++ straight t01 ++ straight t11)%list;
    invert_components ([- input_dir t00 d; input_dir t10 d; is_splitter t10; - is_splitter_head t10] ++ straight t01 ++ straight t11)%list ].
Definition glue_partial_splitters (g : grid) : cnf :=
  flat_map (fun d => for_blocks g d (next d) (Some (width (geo g) - 2)) (partial_clauses d)) directions.

(** optimisations.py 580-590. *)
Definition apply_generic_optimisations (g : grid) : cnf :=
  (prevent_small_loops g ++ prevent_empty_along_underground g ++ glue_splitters g ++ prevent_belt_hooks g ++
   prevent_mergeable_underground g ++ prevent_semicircles g ++ prevent_underground_hook g ++ prevent_zigzags g ++
   prevent_belt_parallel_splitter g ++ glue_partial_splitters g)%list.
