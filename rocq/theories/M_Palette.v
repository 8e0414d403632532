(** Model of the colours of render.py: HSVtoRGB, create_palette and the paint that
    render_solution gives a tile. *)
From Coq Require Import String ZArith QArith Qround Qabs List Bool Lqa.
From Verif Require Import M_Json.
Import ListNotations.
Open Scope Q_scope.

(** Simplification: rational numbers in place of floats. Python's a % b: *)
Definition qmod (a b : Q) : Q := a - b * inject_Z (Qfloor (a / b)).
Definition above (a b : Q) : bool := negb (Qle_bool a b).
Definition paint := (Q * Q * Q)%type.

(** render.py 449-465: HSVtoRGB. *)
Definition hsv_to_rgb (hue sat val : Q) : paint :=
  let c := val * sat in
  let hue := qmod hue 1 * 6 in
  let x := c * (1 - Qabs (qmod hue 2 - 1)) in
  let '(r, g, b) :=
    if above hue 5 then (c, 0, x)
    else if above hue 4 then (x, 0, c)
    else if above hue 3 then (0, x, c)
    else if above hue 2 then (0, c, x)
    else if above hue 1 then (x, c, 0)
    else (c, x, 0) in
  (r + (val - c), g + (val - c), b + (val - c)).

(** render.py 468-478: create_palette, for a count that is not negative (the
    length of a set, or --colour-count, where a negative number fails the
    assertion of 261 before). *)
Definition create_palette (colours : nat) : list paint :=
  if (colours =? 1)%nat then [(1, 1, 1)]
  else if (colours <=? 3)%nat then firstn colours [(1, 1 # 2, 1 # 2); (1 # 2, 1, 1 # 2); (1 # 2, 1 # 2, 1)]
  else map (fun i => hsv_to_rgb (inject_Z (Z.of_nat i) / inject_Z (Z.of_nat colours)) (2 # 5) 1) (seq 0 colours).

Open Scope Z_scope.

(** item.get(key, 0) *)
Definition get_colour (key : string) (item : json) : json := match jget key item with Some v => v | None => JNum 0 end.
Definition colour_keys : list string := ["colour"; "colour_ux"; "colour_uy"]%string.
(** render.py 246-253: what one item adds to all_colours. *)
Definition value_colours (v : json) : list json := match v with JArr l => l | _ => [v] end.
Definition item_colours (item : json) : list json := flat_map (fun key => value_colours (get_colour key item)) colour_keys.
(** 253: without None. Simplification: the colours are numbers or null; other
    values are not modelled (None). *)
Fixpoint numbers (vs : list json) : option (list Z) :=
  match vs with
  | [] => Some []
  | JNull :: r => numbers r
  | JNum n :: r => let* l := numbers r in Some (n :: l)
  | _ :: _ => None
  end.
(** sorted(set), by insertion of what is not there yet. *)
Fixpoint insert (x : Z) (l : list Z) : list Z :=
  match l with [] => [x] | y :: r => if x <? y then x :: l else if x =? y then l else y :: insert x r end.
Definition sorted_set (l : list Z) : list Z := fold_right insert [] l.
Definition all_colours (items : list json) : option (list Z) :=
  let* l := numbers (flat_map item_colours items) in Some (sorted_set l).

(** dict(zip(keys, values))[key] *)
Fixpoint zip_lookup {A} (key : Z) (keys : list Z) (values : list A) : option A :=
  match keys, values with
  | k :: ks, v :: vs => if key =? k then Some v else zip_lookup key ks vs
  | _, _ => None
  end.
(** palette[key] of a numpy array: negative indices count from the end. *)
Definition array_lookup {A} (key : Z) (values : list A) : option A :=
  let n := Z.of_nat (length values) in
  if (0 <=? key) && (key <? n) then nth_error values (Z.to_nat key)
  else if (- n <=? key) && (key <? 0) then nth_error values (Z.to_nat (key + n))
  else None.

(** render.py 271-273: the colour of an item: the first of a list. *)
Definition first_colour (v : json) : option json := match v with JArr [] => None | JArr (c :: _) => Some c | _ => Some v end.
Definition grey : paint := ((1 # 2), (1 # 2), (1 # 2))%Q.

(** render.py 244-262 and 271-283, 306-317, 325-336: the paint for the colour that
    the item has under a key: of its tile, or of a line below ground. *)
Definition paint_of (colour_count : option nat) (items : list json) (key : string) (item : json) : option paint :=
  let* all := all_colours items in
  let* look := match colour_count with
    | None => Some (fun c => zip_lookup c all (create_palette (length all)))
    | Some n => if (length all <=? n)%nat then Some (fun c => array_lookup c (create_palette n)) else None
    end in
  let* c := first_colour (get_colour key item) in
  match c with JNull => Some grey | JNum c => look c | _ => None end.
