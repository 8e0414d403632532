(** Model of the window of render.py, main (498-677): a state machine that reads
    layouts line by line, keeps the pictures of the one that is shown, and saves
    videos. *)
From Coq Require Import ZArith List Bool Lia.
Import ListNotations.
Open Scope Z_scope.

Section Viewer.
  (** A layout as read from a line, and the number of its pictures (get_animation_length).
      Simplification: the lines of the input are given before; a picture is a pair of
      the layout and the time that it was drawn from (render_solution, 611-622). *)
  Variable layout : Type.
  Variable length_of : layout -> Z.
  Variable export_all : bool.

  Inductive event := Quit | KeyI | KeyK | KeyS | KeyE.
  Inductive output :=
  | Shown (picture : layout * Z)
  | Saved (number : Z) (pictures : list (layout * Z))
  | Blueprint (l : layout).

  Record state := {
    index : Z;
    solutions : list layout; (* 549: never empty *)
    input : list layout;
    input_closed : bool;
    framebuffers : list (Z * (layout * Z));
    waiting_to_save : bool;
    t : Z;
    running : bool;
    log : list output }.

  (** 540-549 and 575-583: the first line is there. *)
  Definition start (first : layout) (rest : list layout) : state :=
    {| index := 0; solutions := [first]; input := rest; input_closed := false; framebuffers := []; waiting_to_save := false; t := 0; running := true; log := [] |}.

  (** 526-531: the loop that reads lines up to the index, or the end. *)
  Fixpoint read_lines (index : Z) (solutions input : list layout) (closed : bool) : list layout * list layout * bool :=
    if negb closed && (Z.of_nat (length solutions) <=? index) then
      match input with
      | [] => (solutions, [], true)
      | l :: r => read_lines index (solutions ++ [l]) r closed
      end
    else (solutions, input, closed).

  (** 521-538: increment_solution. *)
  Definition increment_solution (amount : Z) (s : state) : state :=
    let i := index s + amount in
    let '(sols, inp, closed) := read_lines i (solutions s) (input s) (input_closed s) in
    {| index := i mod Z.of_nat (length sols); solutions := sols; input := inp; input_closed := closed; framebuffers := [];
       waiting_to_save := waiting_to_save s; t := t s; running := running s; log := log s |}.

  (** solutions[index] *)
  Definition current (s : state) : option layout := nth_error (solutions s) (Z.to_nat (index s)).

  Definition set_running (b : bool) (s : state) : state :=
    {| index := index s; solutions := solutions s; input := input s; input_closed := input_closed s; framebuffers := framebuffers s;
       waiting_to_save := waiting_to_save s; t := t s; running := b; log := log s |}.
  Definition set_waiting (b : bool) (s : state) : state :=
    {| index := index s; solutions := solutions s; input := input s; input_closed := input_closed s; framebuffers := framebuffers s;
       waiting_to_save := b; t := t s; running := running s; log := log s |}.
  Definition write (o : output) (s : state) : state :=
    {| index := index s; solutions := solutions s; input := input s; input_closed := input_closed s; framebuffers := framebuffers s;
       waiting_to_save := waiting_to_save s; t := t s; running := running s; log := log s ++ [o] |}.
  Definition keep (a : Z) (p : layout * Z) (s : state) : state :=
    {| index := index s; solutions := solutions s; input := input s; input_closed := input_closed s; framebuffers := (a, p) :: framebuffers s;
       waiting_to_save := waiting_to_save s; t := t s; running := running s; log := log s |}.
  Definition tick (s : state) : state :=
    {| index := index s; solutions := solutions s; input := input s; input_closed := input_closed s; framebuffers := framebuffers s;
       waiting_to_save := waiting_to_save s; t := t s + 1; running := running s; log := log s |}.

  (** 587-602: one event. *)
  Definition handle (e : event) (s : state) : option state :=
    match e with
    | Quit => Some (set_running false s)
    | _ => if export_all then Some s else
        match e with
        | KeyI => Some (increment_solution 1 s)
        | KeyK => Some (increment_solution (-1) s)
        | KeyS => Some (set_waiting true s)
        | KeyE => match current s with Some l => Some (write (Blueprint l) s) | None => None end
        | Quit => Some s
        end
    end.
  Fixpoint handle_all (es : list event) (s : state) : option state :=
    match es with [] => Some s | e :: r => match handle e s with Some s' => handle_all r s' | None => None end end.

  Fixpoint buffer (a : Z) (l : list (Z * (layout * Z))) : option (layout * Z) :=
    match l with [] => None | (b, p) :: r => if a =? b then Some p else buffer a r end.
  Definition range (n : Z) : list Z := map Z.of_nat (seq 0 (Z.to_nat n)).
  Fixpoint buffers (is_ : list Z) (l : list (Z * (layout * Z))) : option (list (layout * Z)) :=
    match is_ with
    | [] => Some []
    | i :: r => match buffer i l, buffers r l with Some p, Some ps => Some (p :: ps) | _, _ => None end
    end.

  (** 586-675: one round of the loop; None: an index or key that is not there. *)
  Definition round (es : list event) (s : state) : option state :=
    match handle_all es s with
    | None => None
    | Some s =>
      match current s with
      | None => None
      | Some l =>
        let n := length_of l in
        let a := (t s / 2) mod n in
        let s := match buffer a (framebuffers s) with None => keep a (l, a) s | Some _ => s end in
        match buffer a (framebuffers s) with
        | None => None
        | Some p =>
          let s := write (Shown p) s in
          let s :=
            if waiting_to_save s || export_all then
              match buffers (range n) (framebuffers s) with
              | Some ps =>
                  let s := write (Saved (index s) ps) (set_waiting false s) in
                  if export_all then
                    let s := increment_solution 1 s in
                    if index s =? 0 then set_running false s else s
                  else s
              | None => s
              end
            else s in
          Some (tick s)
        end
      end
    end.

  (** 585: the loop, for the events of each round; it stops by itself. *)
  Fixpoint run (history : list (list event)) (s : state) : option state :=
    match history with
    | [] => Some s
    | es :: r => if running s then match round es s with Some s' => run r s' | None => None end else Some s
    end.
End Viewer.
