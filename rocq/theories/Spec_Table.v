(** Tables in Markdown, as a reader splits them into cells. *)
From Coq Require Import String Ascii List Bool.
Import ListNotations.
Local Open Scope string_scope.

(** The parts between occurrences of [c]. *)
Fixpoint split_at (c : ascii) (s : string) : list string :=
  match s with
  | EmptyString => [""]
  | String d r =>
      if Ascii.eqb d c then "" :: split_at c r
      else match split_at c r with l :: ls => String d l :: ls | [] => [String d ""] end
  end.
Definition blank (c : ascii) : bool := Ascii.eqb c " ".
Fixpoint skip_blanks (l : list ascii) : list ascii :=
  match l with c :: r => if blank c then skip_blanks r else l | [] => [] end.
Definition trim (s : string) : string := string_of_list_ascii (rev (skip_blanks (rev (skip_blanks (list_ascii_of_string s))))).
(** The cells of a line that begins and ends with a bar. *)
Definition cells (line : string) : list string := map trim (removelast (tl (split_at "|" line))).
Definition drawn (s : string) : bool := match s with "" => false | _ => forallb (Ascii.eqb "-") (list_ascii_of_string s) end.

Record table := { title : string; columns : list string; rows : list (string * list string) }.
(** Rows up to an empty line. *)
Fixpoint read_rows (lines : list string) : list (string * list string) :=
  match lines with
  | [] => []
  | "" :: _ => []
  | l :: r => match cells l with h :: cs => (h, cs) :: read_rows r | [] => read_rows r end
  end.
(** A heading of the second level, the heads of the columns, a line of dashes
    with as many cells, and rows. *)
Definition read_table (text : string) : option table :=
  match split_at (ascii_of_nat 10) text with
  | String "#" (String "#" (String " " name)) :: heads :: rule :: more =>
      if Nat.eqb (List.length (cells rule)) (List.length (cells heads)) && forallb drawn (cells rule)
      then Some {| title := name; columns := tl (cells heads); rows := read_rows more |} else None
  | _ => None
  end.
