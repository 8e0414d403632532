(** Property theorems C115 and C116: the recipes read from the files of the game. *)
From Coq Require Import String ZArith QArith Qcanon List Bool Lia.
From Verif Require Import M_Json M_Dict P_Dict Spec_Fetch M_Fetch P_Fetch.
Import ListNotations.
Local Open Scope string_scope.

(** ** C115: tables *)
Definition num (z : Z) : Qc := Q2Qc (inject_Z z).
Definition pair_of (n : string) (z : Z) : lua := Table [(index 0, LString n); (index 1, LNumber (num z))].
Lemma keys_differ (l : list (key * data)) : (fix nd l := match l with [] => true | x :: r => negb (existsb (key_eqb (fst x)) (map fst r)) && nd r end) l = true -> NoDup (map fst l).
Proof.
  induction l as [|x l IH]; intros H; [constructor|]. apply andb_true_iff in H. destruct H as [H1 H2]. cbn [map]. constructor; [|apply IH; exact H2].
  intros Hi. apply negb_true_iff in H1. assert (E : existsb (key_eqb (fst x)) (map fst l) = true) by (apply existsb_exists; exists (fst x); split; [exact Hi|apply key_eqb_spec; reflexivity]). congruence.
Qed.

(** Everything but constants, tables of constants and names or numbers for keys
    raises. *)
Theorem C115_constants v : (exists d, recurse v = Some d) <-> constant v.
Proof. apply recurse_total. Qed.
(** Constants are read as they are. *)
Theorem C115_values : (forall s, recurse (LString s) = Some (DString s)) /\ (forall b, recurse (LBool b) = Some (DBool b)) /\ (forall n, recurse (LNumber n) = Some (DNumber n)).
Proof. split; [|split]; reflexivity. Qed.
(** A table whose keys are 1 to [n], in any order, is read as the list of the
    values of these keys; the last value of a key counts. *)
Theorem C115_sequence fields n d : sequence fields n -> recurse (Table fields) = Some d ->
  exists l, d = DList l /\ List.length l = n /\
    forall i, (i < n)%nat -> exists v x, last_value fields (index i) v /\ recurse v = Some x /\ nth_error l i = Some x.
Proof. apply reads_sequence. Qed.
(** All other tables are read as dictionaries. *)
Theorem C115_record fields d : ~ (exists n, sequence fields n) -> recurse (Table fields) = Some d ->
  exists l, d = DDict l /\ NoDup (map fst l) /\ (forall k, In k (map fst l) <-> In k (map fst fields)) /\
    forall k x, In (k, x) l -> exists v, last_value fields k v /\ recurse v = Some x.
Proof. apply reads_record. Qed.
(** A file is a single call data:extend of a table. *)
Theorem C115_file body d : decode_lua_data body = Some d <->
  exists fields, body = [Invoke "data" "extend" [Table fields]] /\ recurse (Table fields) = Some d.
Proof. apply file_read. Qed.

(** ** C116: recipes *)
(** The recipes of entries in which no difficulty borrows the ingredients of a
    normal one that has its own time. *)
Theorem C116_recipes v entries recipes : listed v entries recipes -> (forall e t, In e entries -> ~ borrowed_time e v t) ->
  get_recipes_for_variant entries v = Some recipes.
Proof. apply recipes_listed. Qed.
(** ... which is always so for the normal ones. *)
Theorem C116_normal entries recipes : listed "normal" entries recipes -> get_recipes_for_variant entries "normal" = Some recipes.
Proof. intros L. apply (C116_recipes _ _ _ L). intros e t _ (Ab & _ & b & F & _). exact (Ab b F). Qed.
(** Otherwise the time of the normal one is lost: the recipe has that of the
    entry, or half a second. *)
Theorem C116_borrowed_time_refuted e v b r t : crafting e -> recipe_of e v b r -> borrowed_time e v t ->
  rc_time r = t /\
  exists r', get_recipes_for_variant [e] v = Some [r'] /\ (field e "energy_required" (rc_time r') \/ absent e "energy_required" /\ rc_time r' = half).
Proof.
  intros Cr Ro (Av & Ai & b' & F & Ft). pose proof Ro as [Bo De Db Ei Ti _ _].
  assert (b' = b).
  { destruct Bo as [b F1|i _ F1|b _ _ F1]; [exfalso; exact (Av b F1)|exfalso; exact (Ai i F1)|]. exact (field_unique e "normal" b' b De F F1). }
  subst b'. split.
  - destruct Ti as [t' Ft'|t' At _|At _]; [exact (field_unique b _ _ _ Db Ft' Ft)|exfalso; exact (At t Ft)|exfalso; exact (At t Ft)].
  - exists {| rc_time := found_time e v; rc_ingredients := rc_ingredients r; rc_results := rc_results r |}. split; [cbn [get_recipes_for_variant]; rewrite (entry_found e v b r Cr Ro); reflexivity|]. cbn [rc_time].
    unfold found_time. apply (absent_get _ _ De) in Av. rewrite Av. destruct (get_item e "energy_required") as [o|] eqn:Eo.
    + left. apply (field_get _ _ _ De). exact Eo.
    + right. split; [apply (absent_get _ _ De); exact Eo|reflexivity].
Qed.
(** Fluids among the ingredients or results of an entry that is not left out
    raise: nothing is written that takes them for items. *)
Theorem C116_items v entries e b i k ds d : In e entries -> crafting e -> dictionary e -> body e v b -> dictionary b -> field b "ingredients" i ->
  k = "ingredients" \/ k = "results" -> field b k (DList ds) -> In d ds -> not_item d -> get_recipes_for_variant entries v = None.
Proof. intros He C De Bo Db Fi Hk Fk Hd Bad. exact (recipes_bad entries v e He (entry_bad e v b k ds d C De Bo Db i Fi Hk Fk Hd Bad)). Qed.
Definition wet : lua := Table
  [(Name "ingredients", Table [(index 0, pair_of "iron" 1); (index 1, Table [(Name "type", LString "fluid"); (Name "name", LString "water"); (Name "amount", LNumber (num 5))])]); (Name "result", LString "rust")].
Definition wet_entry : data := match recurse wet with Some d => d | None => half end.
Definition water : data := DDict [(Name "type", DString "fluid"); (Name "name", DString "water"); (Name "amount", DNumber (num 5))].
Example C116_wet : crafting wet_entry /\ dictionary wet_entry /\ body wet_entry "normal" wet_entry /\ (exists ds, field wet_entry "ingredients" (DList ds) /\ In water ds) /\ not_item water.
Proof.
  assert (De : dictionary wet_entry) by (eexists; split; [vm_compute; reflexivity|apply keys_differ; vm_compute; reflexivity]).
  assert (Dw : dictionary water) by (eexists; split; [reflexivity|apply keys_differ; vm_compute; reflexivity]).
  assert (Fe : field wet_entry "ingredients" (DList [DList [DString "iron"; DNumber (num 1)]; water])) by (apply (field_get _ _ _ De); vm_compute; reflexivity).
  split; [intros c F; apply (field_get _ _ _ De) in F; vm_compute in F; discriminate|]. split; [exact De|]. split; [|split].
  - apply (body_plain _ _ (DList [DList [DString "iron"; DNumber (num 1)]; water])); [apply (absent_get _ _ De); vm_compute; reflexivity|exact Fe].
  - eexists. split; [exact Fe|]. right. left. reflexivity.
  - split; [exact Dw|]. intros F. apply (field_get _ _ _ Dw) in F. vm_compute in F. discriminate.
Qed.
(** All files together. *)
Theorem C116_files files tables v recipes : Forall2 (fun file t => exists fields, file = [Invoke "data" "extend" [Table fields]] /\ recurse (Table fields) = Some (DList t)) files tables ->
  listed v (List.concat tables) recipes -> (forall e t, In e (List.concat tables) -> ~ borrowed_time e v t) ->
  fetch_recipes files v = Some recipes.
Proof.
  intros F L NB. unfold fetch_recipes. rewrite (omap_ok (fun file t => exists fields, file = [Invoke "data" "extend" [Table fields]] /\ recurse (Table fields) = Some (DList t)) _ files tables); [|intros file t H; apply file_read in H; cbv beta; rewrite H; reflexivity|exact F]. { cbn [obind]. apply C116_recipes; assumption. }
Qed.

(** ** A file *)
Definition gear : lua := Table
  [(Name "type", LString "recipe"); (Name "name", LString "gear");
   (Name "normal", Table [(Name "ingredients", Table [(index 0, pair_of "iron" 2)]); (Name "result", LString "gear")]);
   (Name "expensive", Table [(Name "ingredients", Table [(index 0, pair_of "iron" 4)]); (Name "result", LString "gear"); (Name "energy_required", LNumber (num 3))])].
Definition engine : lua := Table
  [(Name "type", LString "recipe"); (Name "category", LString "advanced-crafting"); (Name "energy_required", LNumber (num 10));
   (Name "ingredients", Table [(index 0, pair_of "steel" 1); (index 1, Table [(Name "type", LString "item"); (Name "name", LString "gear"); (Name "amount", LNumber (num 1))])]);
   (Name "result", LString "engine"); (Name "result_count", LNumber (num 2))].
Definition oil : lua := Table [(Name "category", LString "oil-processing"); (Name "ingredients", Table [])].
Definition slow : lua := Table
  [(Name "name", LString "slow"); (Name "normal", Table [(Name "energy_required", LNumber (num 7)); (Name "ingredients", Table [(index 0, pair_of "iron" 1)]); (Name "result", LString "slow")])].
Definition a_file (entries : list lua) : list statement :=
  [Invoke "data" "extend" [Table (combine (map index (seq 0 (List.length entries))) entries)]].
Definition amount (n : string) (z : Z) : data * data := (DString n, DNumber (num z)).
Example C116_file : fetch_recipes [a_file [gear; oil]; a_file [engine]] "normal" =
    Some [{| rc_time := half; rc_ingredients := [amount "iron" 2]; rc_results := [(DString "gear", one)] |};
          {| rc_time := DNumber (num 10); rc_ingredients := [amount "steel" 1; amount "gear" 1]; rc_results := [amount "engine" 2] |}] /\
  fetch_recipes [a_file [gear; oil]; a_file [engine]] "expensive" =
    Some [{| rc_time := DNumber (num 3); rc_ingredients := [amount "iron" 4]; rc_results := [(DString "gear", one)] |};
          {| rc_time := DNumber (num 10); rc_ingredients := [amount "steel" 1; amount "gear" 1]; rc_results := [amount "engine" 2] |}].
Proof. split; vm_compute; reflexivity. Qed.
Definition slow_entry : data := match recurse slow with Some d => d | None => half end.
Definition slow_body : data := match get_item slow_entry "normal" with Some d => d | None => half end.
Definition slow_recipe : recipe := {| rc_time := DNumber (num 7); rc_ingredients := [amount "iron" 1]; rc_results := [(DString "slow", one)] |}.
Lemma slow_dicts : dictionary slow_entry /\ dictionary slow_body.
Proof. split; eexists; (split; [vm_compute; reflexivity|apply keys_differ; vm_compute; reflexivity]). Qed.
Example C116_slow : crafting slow_entry /\ (forall v, v = "normal" \/ v = "expensive" -> recipe_of slow_entry v slow_body slow_recipe) /\ borrowed_time slow_entry "expensive" (DNumber (num 7)) /\
  get_recipes_for_variant [slow_entry] "expensive" = Some [{| rc_time := half; rc_ingredients := rc_ingredients slow_recipe; rc_results := rc_results slow_recipe |}] /\ half <> DNumber (num 7).
Proof.
  destruct slow_dicts as [De Db].
  assert (Ab : forall s, get_item slow_entry s = None -> absent slow_entry s) by (intros s; apply (absent_get _ _ De)).
  assert (Ab' : forall s, get_item slow_body s = None -> absent slow_body s) by (intros s; apply (absent_get _ _ Db)).
  assert (Fe : forall s v, get_item slow_entry s = Some v -> field slow_entry s v) by (intros s v; apply (field_get _ _ _ De)).
  assert (Fb : forall s v, get_item slow_body s = Some v -> field slow_body s v) by (intros s v; apply (field_get _ _ _ Db)).
  split; [intros c F; apply (field_get _ _ _ De) in F; vm_compute in F; discriminate|]. split; [|split; [|split; [vm_compute; reflexivity|intros K; vm_compute in K; discriminate]]].
  - intros v Hv. constructor; [|exact De|exact Db|left; apply Ab; vm_compute; reflexivity| | |].
    + destruct Hv as [-> | ->]; [apply body_own; apply Fe; vm_compute; reflexivity|apply body_normal; [apply Ab|apply Ab|apply Fe]; vm_compute; reflexivity].
    + apply time_own. apply Fb. vm_compute. reflexivity.
    + exists [DList [DString "iron"; DNumber (num 1)]]. split; [apply Fb; vm_compute; reflexivity|]. constructor; [apply item_short|constructor].
    + apply one_single; [apply Ab'|apply Fb|apply Ab']; vm_compute; reflexivity.
  - split; [apply Ab; vm_compute; reflexivity|]. split; [apply Ab; vm_compute; reflexivity|]. exists slow_body. split; [apply Fe|apply Fb]; vm_compute; reflexivity.
Qed.
Print Assumptions C115_constants.
Print Assumptions C115_values.
Print Assumptions C115_sequence.
Print Assumptions C115_record.
Print Assumptions C115_file.
Print Assumptions C116_recipes.
Print Assumptions C116_normal.
Print Assumptions C116_borrowed_time_refuted.
Print Assumptions C116_items.
Print Assumptions C116_files.
Print Assumptions C116_slow.
