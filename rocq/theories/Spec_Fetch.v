(** What the data files of the game say: tables of Lua, and the recipes in them. *)
From Coq Require Import String ZArith QArith Qcanon List Bool.
Import ListNotations.

(** ** Tables *)
(** The keys of a table: numbers, which the parser also gives to fields without
    a key; names; and everything else, as in [{["a b"] = 1}]. *)
Inductive key := Num (n : Qc) | Name (s : string) | Computed.
(** Expressions of Lua; [Other] is everything except tables and constants. *)
Inductive lua := Table (fields : list (key * lua)) | LString (s : string) | LBool (b : bool) | LNumber (n : Qc) | Other.
(** The value of the last field of that key, which is the one that counts. *)
Definition last_value (fields : list (key * lua)) (k : key) (v : lua) : Prop :=
  exists before after, fields = (before ++ (k, v) :: after)%list /\ forall v', ~ In (k, v') after.
Definition index (i : nat) : key := Num (Q2Qc (inject_Z (Z.of_nat (i + 1)))).
(** The keys are the numbers from 1 to [n]. *)
Definition sequence (fields : list (key * lua)) (n : nat) : Prop :=
  forall k, In k (map fst fields) <-> exists i, (i < n)%nat /\ k = index i.
(** Constants, and tables of such with numbers or names for keys. *)
Fixpoint constant (v : lua) : Prop :=
  match v with
  | Table fields => (fix all fs := match fs with [] => True | (k, v') :: r => k <> Computed /\ constant v' /\ all r end) fields
  | Other => False
  | _ => True
  end.

(** ** Recipes *)
(** Values as Python has them after reading: a dictionary has names and numbers
    for keys. *)
Inductive data := DList (l : list data) | DDict (l : list (key * data)) | DString (s : string) | DBool (b : bool) | DNumber (n : Qc).
Inductive field : data -> string -> data -> Prop :=
| a_field l s v : In (Name s, v) l -> field (DDict l) s v.
Definition absent (d : data) (s : string) : Prop := forall v, ~ field d s v.
(** A dictionary has one value for each key. *)
Definition dictionary (d : data) : Prop := exists l, d = DDict l /\ NoDup (map fst l).
Definition half : data := DNumber (Q2Qc (1 # 2)).
Definition one : data := DNumber 1.

(** Made by hand or in machines without fluids. *)
Definition crafting (e : data) : Prop := forall c, field e "category" c -> c = DString "crafting" \/ c = DString "advanced-crafting".
(** The table with the ingredients for the difficulty [v]: that of the
    difficulty if there is one, else the entry itself, else that of the normal
    one. *)
Inductive body (e : data) (v : string) : data -> Prop :=
| body_own b : field e v b -> body e v b
| body_plain i : absent e v -> field e "ingredients" i -> body e v e
| body_normal b : absent e v -> absent e "ingredients" -> field e "normal" b -> body e v b.
(** The time is that of this table, else that of the entry, else half a second. *)
Inductive duration (e b : data) : data -> Prop :=
| time_own t : field b "energy_required" t -> duration e b t
| time_outer t : absent b "energy_required" -> field e "energy_required" t -> duration e b t
| time_default : absent b "energy_required" -> absent e "energy_required" -> duration e b half.
(** Items with their numbers, without or with names for the parts. *)
Inductive full_item : data -> data * data -> Prop :=
| item_full d n a : dictionary d -> field d "type" (DString "item") -> field d "name" n -> field d "amount" a -> full_item d (n, a).
Inductive item : data -> data * data -> Prop :=
| item_short n a r : item (DList (n :: a :: r)) (n, a)
| item_named d x : full_item d x -> item d x.
(** A fluid, or something without type. *)
Definition not_item (d : data) : Prop := dictionary d /\ ~ field d "type" (DString "item").
Inductive outcome (b : data) : list (data * data) -> Prop :=
| many_results ds rs : field b "results" (DList ds) -> Forall2 full_item ds rs -> outcome b rs
| one_result n c : absent b "results" -> field b "result" n -> field b "result_count" c -> outcome b [(n, c)]
| one_single n : absent b "results" -> field b "result" n -> absent b "result_count" -> outcome b [(n, one)].
Record recipe := { rc_time : data; rc_ingredients : list (data * data); rc_results : list (data * data) }.
(** [r] is the recipe of the entry [e] for the difficulty [v], given by the table
    [b]. *)
Record recipe_of (e : data) (v : string) (b : data) (r : recipe) : Prop := {
  ro_body : body e v b;
  ro_entry : dictionary e;
  ro_dictionary : dictionary b;
  ro_either : absent e "result" \/ absent e "results";
  ro_time : duration e b (rc_time r);
  ro_ingredients : exists ds, field b "ingredients" (DList ds) /\ Forall2 item ds (rc_ingredients r);
  ro_results : outcome b (rc_results r) }.
(** The recipes of a list of entries in order; those of other kinds are left out. *)
Inductive listed (v : string) : list data -> list recipe -> Prop :=
| listed_end : listed v [] []
| listed_other e es rs : dictionary e -> ~ crafting e -> listed v es rs -> listed v (e :: es) rs
| listed_recipe e b r es rs : crafting e -> recipe_of e v b r -> listed v es rs -> listed v (e :: es) (r :: rs).
(** The difficulty [v] takes its ingredients from the normal one, which has a
    time of its own. *)
Definition borrowed_time (e : data) (v : string) (t : data) : Prop :=
  absent e v /\ absent e "ingredients" /\ exists b, field e "normal" b /\ field b "energy_required" t.
