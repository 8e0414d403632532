(** Model of assets/fetch.py: the reading of recipes.  Copying of images and
    finding the files of the game are not modelled. *)
From Coq Require Import String ZArith QArith Qcanon List Bool.
From Verif Require Import M_Json M_Dict Spec_Fetch.
Import ListNotations.
Local Open Scope string_scope.

(** Equality of dictionary keys; a number equals itself whether it is written as
    a float or not. *)
Definition key_eqb (a b : key) : bool :=
  match a, b with
  | Num n, Num m => if Qc_eq_dec n m then true else false
  | Name s, Name t => String.eqb s t
  | Computed, Computed => true
  | _, _ => false
  end.

(** assets/fetch.py 65-90: recurse.  A key that is neither a number nor a name,
    and an expression that is neither a table nor a constant, raise. *)
Fixpoint recurse (node : lua) : option data :=
  match node with
  | Table fields =>
      let* result := (fix go (fs : list (key * lua)) (result : list (key * data)) : option (list (key * data)) :=
        match fs with
        | [] => Some result
        | (k, v) :: r => match k with Computed => None | _ => let* d := recurse v in go r (dset key_eqb k d result) end
        end) fields [] in
      match omap (fun i => dget key_eqb (index i) result) (seq 0 (List.length result)) with
      | Some l => Some (DList l)
      | None => Some (DDict result)
      end
  | LString s => Some (DString s)
  | LBool b => Some (DBool b)
  | LNumber n => Some (DNumber n)
  | Other => None
  end.

(** The statements of a file, as the parser gives them: [source:func(args)] with
    names for source and function, and all others. *)
Inductive statement := Invoke (source func : string) (args : list lua) | OtherStatement.
(** assets/fetch.py 56-91: decode_lua_data. *)
Definition decode_lua_data (body : list statement) : option data :=
  match body with
  | [Invoke source func args] =>
      if negb (String.eqb source "data" && String.eqb func "extend") then None else
      match args with
      | [Table fields] => recurse (Table fields)
      | _ => None
      end
  | _ => None
  end.

(** Python's d[name] where d must be a dictionary (lists and texts have no names
    for indices, other values no indices). *)
Definition get_item (d : data) (name : string) : option data :=
  match d with DDict l => dget key_eqb (Name name) l | _ => None end.
(** d.get(name, default), and name in d, which are used on dictionaries or
    followed by such a use; other values raise there. *)
Definition get_or (d : data) (name : string) (default : data) : option data :=
  match d with DDict l => Some (match dget key_eqb (Name name) l with Some v => v | None => default end) | _ => None end.
Definition has (d : data) (name : string) : option bool :=
  match d with DDict l => Some (match dget key_eqb (Name name) l with Some _ => true | None => false end) | _ => None end.
(** The letters of a text. *)
Fixpoint letters (s : string) : list data :=
  match s with EmptyString => [] | String c r => DString (String c EmptyString) :: letters r end.
Definition key_data (k : key) : data := match k with Num n => DNumber n | Name s => DString s | Computed => DBool false end.
(** for item in d. *)
Definition iterate (d : data) : option (list data) :=
  match d with
  | DList l => Some l
  | DDict l => Some (map (fun kv => key_data (fst kv)) l)
  | DString s => Some (letters s)
  | _ => None
  end.
Definition is_string (d : data) (s : string) : bool := match d with DString t => String.eqb t s | _ => false end.

(** assets/fetch.py 115-116, 121-122. *)
Definition named_item (d : data) : option (data * data) :=
  let* ty := get_item d "type" in
  if negb (is_string ty "item") then None else
  let* n := get_item d "name" in
  let* a := get_item d "amount" in
  Some (n, a).
(** assets/fetch.py 111-116. *)
Definition ingredient (d : data) : option (data * data) :=
  match d with
  | DList l => match l with n :: a :: _ => Some (n, a) | _ => None end
  | _ => named_item d
  end.

(** assets/fetch.py 95-129: one entry; the outer option is for exceptions, the
    inner one for entries that are skipped. *)
Definition entry_recipe (entry : data) (variant : string) : option (option recipe) :=
  let* hc := has entry "category" in
  let* skip := if hc then let* c := get_item entry "category" in Some (negb (is_string c "crafting" || is_string c "advanced-crafting")) else Some false in
  if skip then Some None else
  let* time := get_or entry "energy_required" half in
  let* hv := has entry variant in
  let* entry := if hv then get_item entry variant else Some entry in
  let* time := get_or entry "energy_required" time in
  let* hi := has entry "ingredients" in
  let* hr := has entry "result" in
  let* hrs := has entry "results" in
  let* entry := if negb hi && (negb hr || negb hrs) then get_item entry "normal" else Some entry in
  let* given := get_item entry "ingredients" in
  let* items := iterate given in
  let* ingredients := omap ingredient items in
  let* hrs := has entry "results" in
  let* results := if hrs
    then let* given := get_item entry "results" in let* items := iterate given in omap named_item items
    else let* r := get_item entry "result" in let* c := get_or entry "result_count" one in Some [(r, c)] in
  Some (Some {| rc_time := time; rc_ingredients := ingredients; rc_results := results |}).
(** assets/fetch.py 93-130: get_recipes_for_variant. *)
Fixpoint get_recipes_for_variant (entries : list data) (variant : string) : option (list recipe) :=
  match entries with
  | [] => Some []
  | e :: r =>
      let* x := entry_recipe e variant in
      let* rest := get_recipes_for_variant r variant in
      Some (match x with Some y => y :: rest | None => rest end)
  end.

(** assets/fetch.py 133-146: fetch_recipes on the contents of the files, and what
    is written for a difficulty. *)
Definition fetch_recipes (files : list (list statement)) (variant : string) : option (list recipe) :=
  let* lists := omap (fun file => let* d := decode_lua_data file in match d with DList l => Some l | _ => None end) files in
  get_recipes_for_variant (List.concat lists) variant.
