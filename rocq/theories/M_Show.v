(** Model of render.py 366-414, the sizes of the texts of --show-raw, and of
    util.py 20-44, the list that counts where its elements come from. *)
From Coq Require Import String ZArith QArith List Bool.
From Verif Require Import M_Json.
Import ListNotations.
Open Scope Z_scope.

(** * render_attributes *)
(** The lines of a cell as font.size gives their widths and heights, which are
    also the sizes of what font.render gives. Simplification: rationals stand for
    floats; what the lines say (343-364)
    and the pixels of the letters are left out. *)
Definition lines := list (Z * Z).
(** render.py 366-375: the largest width and the largest height of a cell (max
    raises without a line). *)
Definition cell_size (l : lines) : option (Z * Z) :=
  match l with
  | [] => None
  | a :: r => Some (fold_left Z.max (map fst r) (fst a), fold_left Z.add (map snd l) 0)
  end.
Fixpoint largest (acc : Z * Z) (cells : list ((Z * Z) * lines)) : option (Z * Z) :=
  match cells with
  | [] => Some acc
  | c :: r => let* s := cell_size (snd c) in largest (Z.max (fst s) (fst acc), Z.max (snd s) (snd acc)) r
  end.
(** 380: min(a, b), the first one if they are equal. *)
Definition text_scale (w h : Z) : Q :=
  let a := (1 / inject_Z w)%Q in let b := (1 / inject_Z h)%Q in if Qle_bool a b then a else b.
(** 384-414: the rectangles of the lines, each below the one before: left upper and
    right lower corner. *)
Fixpoint place_lines (scale left top : Q) (l : lines) : list (Q * Q * (Q * Q)) :=
  match l with
  | [] => []
  | (w, h) :: r =>
      let bottom := (top + scale * inject_Z h)%Q in
      ((left, top), (left + scale * inject_Z w, bottom))%Q :: place_lines scale left bottom r
  end.
(** 366-414 on the cells with their positions, in order. *)
Definition place_texts (cells : list ((Z * Z) * lines)) : option (list ((Z * Z) * list (Q * Q * (Q * Q)))) :=
  let* m := largest (0, 0) cells in
  if (fst m =? 0) || (snd m =? 0) then Some []
  else
    let scale := text_scale (fst m) (snd m) in
    Some (map (fun c => (fst c, place_lines scale (inject_Z (fst (fst c))) (inject_Z (snd (fst c))) (snd c))) cells).

(** * StackTracingList *)
Section Trace.
  (** A stack, as get_stack gives it (util.py 13-17), and equality of stacks. *)
  Variables (stack value : Type) (same : stack -> stack -> bool).
  Inductive growth := Extend (s : stack) (l : list value) | Append (s : stack) (v : value).
  (** 26, 30: self.traces[s] += n, of a dictionary that starts with 0. *)
  Fixpoint count_in (s : stack) (n : Z) (t : list (stack * Z)) : list (stack * Z) :=
    match t with
    | [] => [(s, n)]
    | (k, m) :: r => if same s k then (k, m + n) :: r else (k, m) :: count_in s n r
    end.
  (** 25-31. *)
  Definition grow (st : list value * list (stack * Z)) (g : growth) : list value * list (stack * Z) :=
    match g with
    | Extend s l => ((fst st ++ l)%list, count_in s (Z.of_nat (List.length l)) (snd st))
    | Append s v => ((fst st ++ [v])%list, count_in s 1 (snd st))
    end.
  (** 42: sorted by the count, largest first; equal ones keep their order. *)
  Fixpoint insert (x : stack * Z) (l : list (stack * Z)) : list (stack * Z) :=
    match l with [] => [x] | y :: r => if snd y <? snd x then x :: l else y :: insert x r end.
  Definition by_count (l : list (stack * Z)) : list (stack * Z) := fold_left (fun a x => insert x a) l [].
  (** 33-44: the lines of the profile, as stacks and counts (max raises without a
      trace; a stack has at least the frame of its caller). Simplification: the padding of the columns is left out. *)
  Definition profile (t : list (stack * Z)) : option (list (stack * Z)) :=
    match t with [] => None | _ => Some (by_count t) end.
End Trace.
