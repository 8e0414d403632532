(** Model of render.py 346-358, the attributes that --show-raw names, and of
    render.py 423-433, the lines of the grid. *)
From Coq Require Import ZArith QArith Qround List Bool String.
From Verif Require Import M_Json.
Import ListNotations.
Open Scope Z_scope.
(** item[i]: a negative index counts from the end; a dictionary read from json has no
    numbers as keys (KeyError). Simplification: cells that are strings also have
    elements; they are no cells of any solution. *)
Definition item_index (item : json) (i : Z) : option json :=
  match item with
  | JArr l => let j := if i <? 0 then i + Z.of_nat (List.length l) else i in if j <? 0 then None else nth_error l (Z.to_nat j)
  | _ => None
  end.
(** sub_item.get(piece): null for a missing entry; only a dictionary has get. *)
Definition item_get (item : json) (p : string) : option json :=
  match item with JObj l => Some (match assoc p l with Some v => v | None => JNull end) | _ => None end.
(** 350-358 on name.split('.'): a piece for which int does not raise indexes the whole
    item, as in the program. [number_of] stands for int, with None for ValueError. *)
Fixpoint attribute_from (number_of : string -> option Z) (item sub_item : json) (pieces : list string) : option json :=
  match pieces with
  | [] => Some sub_item
  | p :: r =>
      match number_of p with
      | Some i => let* v := item_index item i in attribute_from number_of item v r
      | None => let* v := item_get sub_item p in attribute_from number_of item v r
      end
  end.
Definition attribute (number_of : string -> option Z) (item : json) (pieces : list string) : option json :=
  attribute_from number_of item item pieces.

(** 426, 430: range(floor(a), ceil(b)). Simplification: rationals stand for floats. *)
Definition line_range (a b : Q) : list Z := map (fun k => Qfloor a + Z.of_nat k) (seq 0 (Z.to_nat (Qceiling b - Qfloor a))).
(** 423-433: the lines, by their two ends. *)
Definition render_grid (start_x stop_x start_y stop_y : Q) : list (Q * Q * (Q * Q)) :=
  map (fun x => ((inject_Z x, start_y), (inject_Z x, stop_y))) (line_range start_x stop_x) ++
  map (fun y => ((start_x, inject_Z y), (stop_x, inject_Z y))) (line_range start_y stop_y).
