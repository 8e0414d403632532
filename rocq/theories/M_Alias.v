(** Model of template.py: composite templates with aliases, that is functions
    among the entries. *)
From Coq Require Import String Ascii ZArith List Bool.
From Verif Require Import M_Json M_Template M_Network M_Grid.
Import ListNotations.
Local Open Scope string_scope.

(** A function: its parameters and its other local variables (co_varnames has
    both), and what it returns; or one that takes every argument by name.
    Simplification: no defaults and no *args; arrays of numpy are nested lists. *)
Inductive func :=
| Named (params locals : list string) (value : list instance -> option instance)
| Everything (value : list (string * instance) -> option instance).
(** The argument of CompositeTemplate: a dictionary of templates, dictionaries
    and functions. *)
Inductive ctemplate := Leaf (t : template) | Comp (fields : list (string * (ctemplate + func))).

(** template.py 225-236: the variables of a composite template. *)
Fixpoint cvariable_count (c : ctemplate) : nat :=
  match c with
  | Leaf t => variable_count t
  | Comp fields => (fix sum fs := match fs with [] => O | (_, inl c) :: r => (cvariable_count c + sum r)%nat | (_, inr _) :: r => sum r end) fields
  end.

Definition mem (s : string) (l : list string) : bool := existsb (String.eqb s) l.
(** template.py 217-222: call_ignoring_unused.  An argument that is no parameter,
    and a parameter without argument, raise. *)
Definition call_ignoring_unused (f : func) (args : list (string * instance)) : option instance :=
  match f with
  | Everything value => value args
  | Named params locals value =>
      let given := filter (fun a => mem (fst a) (params ++ locals)%list) args in
      if forallb (fun a => mem (fst a) params) given then
        let* vs := omap (fun p => assoc p given) params in value vs
      else None
  end.
(** template.py 255-259. *)
Fixpoint add_aliases (fields : list (string * (ctemplate + func))) (members : list (string * instance)) : option (list (string * instance)) :=
  match fields with
  | [] => Some members
  | (_, inl _) :: r => add_aliases r members
  | (name, inr f) :: r => let* v := call_ignoring_unused f members in add_aliases r (members ++ [(name, v)])
  end.

(** The names that collections.namedtuple accepts: identifiers, without keywords
    and without an underscore first.  Simplification: ASCII letters only. *)
Definition keywords : list string :=
  ["False"; "None"; "True"; "and"; "as"; "assert"; "async"; "await"; "break"; "class"; "continue"; "def"; "del"; "elif"; "else"; "except";
   "finally"; "for"; "from"; "global"; "if"; "import"; "in"; "is"; "lambda"; "nonlocal"; "not"; "or"; "pass"; "raise"; "return"; "try"; "while"; "with"; "yield"].
Definition letter (c : ascii) : bool := let n := nat_of_ascii c in ((65 <=? n) && (n <=? 90) || (97 <=? n) && (n <=? 122))%nat.
Definition digit (c : ascii) : bool := let n := nat_of_ascii c in ((48 <=? n) && (n <=? 57))%nat.
Definition field_name (s : string) : bool :=
  match s with
  | EmptyString => false
  | String c r => letter c && forallb (fun d => letter d || digit d || Ascii.eqb d "_") (list_ascii_of_string r) && negb (mem s keywords)
  end.
(** rename=True: other names become "_" and their position. *)
Fixpoint renamed (i : Z) (names : list string) : list string :=
  match names with [] => [] | n :: r => (if field_name n then n else "_" ++ str_int i) :: renamed (i + 1) r end.
(** template.py 238, 260: tile_type( **members ): every field must be given, and
    nothing else. *)
Definition named_tuple (names : list string) (members : list (string * instance)) : option instance :=
  let fields := renamed 0 names in
  if forallb (fun m => mem (fst m) fields) members then
    let* vs := omap (fun n => let* v := assoc n members in Some (n, v)) fields in Some (IRec vs)
  else None.

(** template.py 249-260: instantiate. *)
Fixpoint create (c : ctemplate) (top : Z) : option (instance * Z) :=
  match c with
  | Leaf t => Some (instantiate t top)
  | Comp fields =>
      let* (members, top') :=
        (fix go fs top :=
           match fs with
           | [] => Some ([], top)
           | (name, inl c) :: r =>
               let* (i, top1) := create c top in
               let* (is_, top2) := go r top1 in Some ((name, i) :: is_, top2)
           | (_, inr _) :: r => go r top
           end) fields top in
      let* members := add_aliases fields members in
      let* tile := named_tuple (map fst fields) members in
      Some (tile, top')
  end.
(** template.py 240-247: parse; the aliases are not looked at. *)
Fixpoint cparse (c : ctemplate) (i : instance) (mapping : Z -> option bool) : option parsed :=
  match c with
  | Leaf t => parse t i mapping
  | Comp fields =>
      match i with
      | IRec tile_dict =>
          let* ps :=
            (fix go (fs : list (string * (ctemplate + func))) : option (list (string * parsed)) :=
               match fs with
               | [] => Some []
               | (name, inl c) :: r =>
                   let* x := assoc name tile_dict in
                   let* p := cparse c x mapping in
                   let* ps := go r in Some ((name, p) :: ps)
               | (_, inr _) :: r => go r
               end) fields in
          Some (PRec ps)
      | _ => None
      end
  end.

(** solver.py 68: [*input_direction, *output_direction]. *)
Definition joined (args : list instance) : option instance :=
  match args with [IList a; IList b] => Some (IList (a ++ b)) | _ => None end.
(** solver.py 48-80: the entries of a tile, with the two functions. *)
Definition solver_fields (g : grid) : list (string * (ctemplate + func)) :=
    ([("is_belt", inl (Leaf TBool)); ("is_empty", inl (Leaf TBool)); ("is_splitter", inl (Leaf TBool)); ("is_underground_in", inl (Leaf TBool));
      ("is_underground_out", inl (Leaf TBool)); ("is_splitter_head", inl (Leaf TBool)); ("is_input", inl (Leaf TBool)); ("is_output", inl (Leaf TBool));
      ("input_direction", inl (Leaf (TSized OneHot 4))); ("output_direction", inl (Leaf (TSized OneHot 4)));
      ("underground", inl (Leaf (TArray TBool [4%nat])));
      ("type", inr (Named ["is_belt"; "is_empty"; "is_splitter"; "is_underground_in"; "is_underground_out"] [] (fun args => Some (IList args))));
      ("all_direction", inr (Named ["input_direction"; "output_direction"] [] joined))] ++
     match gcolours g with
     | None => []
     | Some _ => [("colour", inl (Leaf (TSized (Number false) (colour_bits g))));
                  ("colour_ux", inl (Leaf (TSized (Number false) (colour_bits g))));
                  ("colour_uy", inl (Leaf (TSized (Number false) (colour_bits g))))]
     end ++ map (fun e => (fst e, inl (Leaf (snd e)))) (gextras g))%list.
