(** Model of factorio_sat/template.py: variable allocation, parsing, grid
    geometry and iteration. *)
From Coq Require Import ZArith List Bool String.
From Verif Require Import Spec_Cnf Spec_Tile M_Json M_Util.
Import ListNotations.
Local Open Scope string_scope.
Open Scope Z_scope.

(** template.py 188-211: the sized templates. *)
Inductive sized_kind := ManyHot | OneHot | Number (is_signed : bool).

(** template.py 132-268.  Aliases of a CompositeTemplate (lines 230-231,
    255-259) are computed from the members and allocate nothing; they are not
    part of this type and are modelled where they are used (M_Grid.v). *)
Inductive template :=
| TBool
| TSized (k : sized_kind) (size : nat)
| TArray (component : template) (shape : list nat)
| TComposite (fields : list (string * template)).

(** What [instantiate] returns: a literal, a nested list, or a named tuple. *)
Inductive instance :=
| ILit (v : lit)
| IList (l : list instance)
| IRec (fields : list (string * instance)).

(** numpy's prod of a shape. *)
Definition shape_size (shape : list nat) : nat := fold_right Nat.mul 1%nat shape.

(** template.py 134-136, 150-152, 180-182, 236: variable_count. *)
Fixpoint variable_count (t : template) : nat :=
  match t with
  | TBool => 1
  | TSized _ n => n
  | TArray c shape => shape_size shape * variable_count c
  | TComposite fs => fold_right (fun f n => variable_count (snd f) + n)%nat 0%nat fs
  end.

(** template.py 158: np.reshape(composed, shape).tolist() in row-major order;
    [chunk] is the number of elements below the first axis. *)
Fixpoint reshape (shape : list nat) (l : list instance) : instance :=
  match shape with
  | [] => nth 0 l (IList [])
  | s :: rest =>
      IList (map (fun i => reshape rest (firstn (shape_size rest) (skipn (i * shape_size rest) l))) (seq 0 s))
  end.

Section Seq.
  Variable step : Z -> instance * Z.
  (** template.py 156-157: instantiating a component [n] times. *)
  Fixpoint repeat_instantiate (n : nat) (top : Z) : list instance * Z :=
    match n with
    | O => ([], top)
    | S n' =>
        let '(i, top1) := step top in
        let '(is_, top2) := repeat_instantiate n' top1 in (i :: is_, top2)
    end.
End Seq.

(** template.py 138-139, 154-158, 184-185, 249-260: instantiate.  The pool is
    a counter: IDPool()._next() returns [top + 1]. *)
Fixpoint instantiate (t : template) (top : Z) : instance * Z :=
  match t with
  | TBool => (ILit (top + 1), top + 1)
  | TSized _ n => (IList (map ILit (fresh top n)), top + Z.of_nat n)
  | TArray c shape =>
      let '(l, top') := repeat_instantiate (instantiate c) (shape_size shape) top in (reshape shape l, top')
  | TComposite fs =>
      let '(l, top') :=
        (fix go fs top :=
           match fs with
           | [] => ([], top)
           | (name, c) :: rest =>
               let '(i, top1) := instantiate c top in
               let '(is_, top2) := go rest top1 in ((name, i) :: is_, top2)
           end) fs top in
      (IRec l, top')
  end.

(** template.py 104-114: flatten. *)
Fixpoint flatten (i : instance) : list lit :=
  match i with
  | ILit v => [v]
  | IList l => flat_map flatten l
  | IRec fs => flat_map (fun f => flatten (snd f)) fs
  end.

(** Parsed values. *)
Inductive parsed :=
| PBool (b : bool)
| PNum (n : Z)
| PNone
| PList (l : list parsed)
| PRec (fields : list (string * parsed)).

(** template.py 190-192: positions of the true literals. *)
Fixpoint hot_indices (i : Z) (bs : list bool) : list Z :=
  match bs with [] => [] | b :: r => if b then i :: hot_indices (i + 1) r else hot_indices (i + 1) r end.

(** template.py 199-202: first true literal. *)
Fixpoint first_hot (i : Z) (bs : list bool) : option Z :=
  match bs with [] => None | b :: r => if b then Some i else first_hot (i + 1) r end.

Definition lits_of (i : instance) : option (list lit) :=
  match i with
  | IList l => omap (fun j => match j with ILit v => Some v | _ => None end) l
  | _ => None
  end.

(** template.py 190-192, 197-202, 209-211: parse of the sized templates; a
    missing variable (KeyError) is [None]. *)
Definition parse_sized (k : sized_kind) (i : instance) (mapping : Z -> option bool) : option parsed :=
  let* ls := lits_of i in
  let* bs := omap mapping ls in
  match k with
  | ManyHot => Some (PList (map PNum (hot_indices 0 bs)))
  | OneHot => Some (match first_hot 0 bs with Some j => PNum j | None => PNone end)
  | Number false => Some (PNum (read_number bs))
  | Number true => let* n := read_number_signed bs in Some (PNum n)
  end.

(** template.py 141-142, 160-170, 240-247: parse. *)
Fixpoint parse (t : template) (i : instance) (mapping : Z -> option bool) : option parsed :=
  match t with
  | TBool => match i with ILit v => let* b := mapping v in Some (PBool b) | _ => None end
  | TSized k _ => parse_sized k i mapping
  | TArray c shape =>
      match i with
      | IList _ =>
          (fix recurse (shape : list nat) (i : instance) : option parsed :=
             match shape with
             | [] => parse c i mapping
             | s :: rest =>
                 match i with
                 | IList l =>
                     let* ps := omap (fun j => let* x := nth_error l j in recurse rest x) (seq 0 s) in
                     Some (PList ps)
                 | _ => None
                 end
             end) shape i
      | _ => None
      end
  | TComposite fs =>
      match i with
      | IRec is_ =>
          let* ps :=
            (fix go (fs : list (string * template)) : option (list (string * parsed)) :=
               match fs with
               | [] => Some []
               | (name, c) :: rest =>
                   let* x := assoc name is_ in
                   let* p := parse c x mapping in
                   let* ps := go rest in Some ((name, p) :: ps)
               end) fs in
          Some (PRec ps)
      | _ => None
      end
  end.

(** template.py 392: mapping = {abs(lit): lit > 0 for lit in solution}; a later
    entry replaces an earlier one. *)
Fixpoint mapping_of (solution : list lit) (v : Z) : option bool :=
  match solution with
  | [] => None
  | l :: r => match mapping_of r v with
              | Some b => Some b
              | None => if Z.abs l =? v then Some (0 <? l) else None
              end
  end.

(** template.py 292: the tiles, instantiated over ogrid[0:height, 0:width] in
    row-major order. *)
Fixpoint instantiate_rows (t : template) (h w : nat) (top : Z) : list (list instance) * Z :=
  match h with
  | O => ([], top)
  | S h' =>
      let '(r, top1) := repeat_instantiate (instantiate t) w top in
      let '(rs, top2) := instantiate_rows t h' w top1 in (r :: rs, top2)
  end.

(** template.py 369-371: get_tile_instance on the allocated tiles. *)
Definition tile_instance (tiles : list (list instance)) (x y : Z) : option instance :=
  if (0 <=? x) && (0 <=? y) then
    let* r := nth_error tiles (Z.to_nat y) in nth_error r (Z.to_nat x)
  else None.

(** Geometry of a grid: template.py 281-285. *)
Record geometry := { width : Z; height : Z; wrap_x : bool; wrap_y : bool }.

(** template.py 377-384 for one axis. *)
Definition axis_offset (wrap : bool) (size p : Z) : option Z :=
  if (p <? 0) || (size <=? p) then (if wrap then Some (p mod size) else None) else Some p.

(** template.py 373-386: get_tile_instance_offset, as the position of the tile
    (the tile itself is a function of the position, 369-371; the assertion of
    line 370 is [None] here and never fails, theorem C40). *)
Definition get_tile_instance_offset (g : geometry) (x y dx dy : Z) : option (Z * Z) :=
  let* px := axis_offset (wrap_x g) (width g) (x + dx) in
  let* py := axis_offset (wrap_y g) (height g) (y + dy) in
  if ((0 <=? px) && (0 <=? py)) && ((px <? width g) && (py <? height g)) then Some (px, py) else None.

(** range(n). *)
Definition range (n : Z) : list Z := map Z.of_nat (seq 0 (Z.to_nat n)).

(** template.py 304-307: iterate_tiles, as positions. *)
Definition iterate_tiles (g : geometry) : list (Z * Z) :=
  flat_map (fun x => map (fun y => (x, y)) (range (height g))) (range (width g)).

(** template.py 357-364: iterate_tile_lines for length 2 (its only use). *)
Definition iterate_tile_lines2 (g : geometry) (d : Z * Z) : list ((Z * Z) * option (Z * Z)) :=
  map (fun p => (p, get_tile_instance_offset g (fst p) (snd p) (fst d) (snd d))) (iterate_tiles g).

(** template.py 344-353 and 334-343: the four tests skipping a position.  As in
    the source, the y tests add the y offset to x. *)
Definition block_skipped (min_x min_y max_x max_y : option Z) (ox oy x y : Z) : bool :=
  match min_x with Some m => (x <? m) || (x + ox <? m) | None => false end ||
  match min_y with Some m => (y <? m) || (x + oy <? m) | None => false end ||
  match max_x with Some m => (m <? x) || (m <? x + ox) | None => false end ||
  match max_y with Some m => (m <? y) || (m <? x + oy) | None => false end.

(** template.py 309-355: iterate_tile_blocks; a block is the list of its rows
    of (optional) positions. *)
Definition iterate_tile_blocks (g : geometry) (c : Z * Z) (column_count : Z) (r : Z * Z) (row_count : Z)
    (min_x min_y max_x max_y : option Z) : option (list (list (list (option (Z * Z))))) :=
  let '(cx, cy) := c in let '(rx, ry) := r in
  if negb (Z.abs cx + Z.abs cy =? 1) then None else
  if negb (Z.abs rx + Z.abs ry =? 1) then None else
  if negb (0 <? column_count) then None else
  if negb (0 <? row_count) then None else
  let ox := rx * (row_count - 1) + cx * (column_count - 1) in
  let oy := ry * (row_count - 1) + cy * (column_count - 1) in
  Some (map (fun p =>
      map (fun row => map (fun col =>
             get_tile_instance_offset g (fst p) (snd p) (rx * row + cx * col) (ry * row + cy * col))
           (range column_count)) (range row_count))
    (filter (fun p => negb (block_skipped min_x min_y max_x max_y ox oy (fst p) (snd p)))
       (iterate_tiles g))).
