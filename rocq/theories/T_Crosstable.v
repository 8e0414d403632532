(** Property theorems about calculate_optimal.py: the cross table, the order of
    the networks and the export of query results: C38, C64-C66. *)
From Coq Require Import String Ascii ZArith List Bool Lia Permutation Sorted.
From Verif Require Import Spec_Tile M_Json M_Dict P_Dict M_Tile M_Blueprint M_Solve P_Solve M_Network P_Network2 M_Optimal Spec_Optimal P_Optimal P_Search T_Optimal.
Import ListNotations.
Local Open Scope string_scope.
Open Scope Z_scope.

(** * C38 *)
Notation knows st u w h := (does_balancer_exist st (u, w + 2, h)).
(** What each mark means. *)
Theorem C38_marks {A} (st : store A) w h :
  (cell st w h = Yellow <-> knows st 4 w h = Some true) /\
  (cell st w h = Red <-> knows st 4 w h <> Some true /\ knows st 6 w h = Some true) /\
  (cell st w h = Blue <-> knows st 4 w h <> Some true /\ knows st 6 w h <> Some true /\ knows st 8 w h = Some true) /\
  (cell st w h = Unknown <-> knows st 4 w h = None /\ knows st 6 w h = None /\ knows st 8 w h = None) /\
  (cell st w h = Impossible <-> (forall u, In u [4; 6; 8] -> knows st u w h <> Some true) /\
                                (exists u, In u [4; 6; 8] /\ knows st u w h = Some false)).
Proof.
  assert (I3 : forall (P : Z -> Prop), (forall u, In u [4; 6; 8] -> P u) <-> P 4 /\ P 6 /\ P 8).
  { intros P. split; [intros H; repeat split; apply H; cbn; auto|]. intros (H1 & H2 & H3) u [<-|[<-|[<-|[]]]]; assumption. }
  assert (E3 : forall (P : Z -> Prop), (exists u, In u [4; 6; 8] /\ P u) <-> P 4 \/ P 6 \/ P 8).
  { intros P. split; [intros (u & [<-|[<-|[<-|[]]]] & H); auto|]. intros [H|[H|H]]; eexists; (split; [|exact H]); cbn; auto. }
  rewrite I3, E3. unfold cell. cbn [cell_loop belt_levels].
  destruct (knows st 4 w h) as [[|]|], (knows st 6 w h) as [[|]|], (knows st 8 w h) as [[|]|];
    repeat split; intros; try discriminate; try congruence; try tauto; intuition congruence.
Qed.
(** The mark of impossibility should mean that no belt level works.  It is also
    printed when only the shortest undergrounds are known to fail. *)
Theorem C38_impossible_refuted :
  ~ (forall (st : store string) w h, built any_answer st -> cell st w h = Impossible ->
     forall u, In u [4; 6; 8] -> knows st u w h = Some false).
Proof.
  intros H. set (st := step_db Length 4 (new_store "2x2" net2) None).
  assert (B : built any_answer st) by (apply step_db_built; constructor).
  specialize (H st 1 2 B eq_refl 8 ltac:(cbn; auto)). vm_compute in H. discriminate.
Qed.
Theorem C38_impossible_whenever {A} (st : store A) w h :
  knows st 4 w h = Some false -> knows st 6 w h = None -> knows st 8 w h = None -> cell st w h = Impossible.
Proof. intros H1 H2 H3. unfold cell. cbn [cell_loop belt_levels]. rewrite H1, H2, H3. reflexivity. Qed.
(** What can be relied on: the shortest undergrounds are known to fail, and no
    belt level is known to work. *)
Theorem C38_impossible_means {A} (st : store A) w h : history st ->
  (cell st w h = Impossible <-> knows st 4 w h = Some false /\ knows st 6 w h <> Some true /\ knows st 8 w h <> Some true).
Proof.
  intros Hs. destruct (C38_marks st w h) as (_ & _ & _ & _ & E). rewrite E. split.
  - intros [H1 (u & Hu & F)]. assert (K : knows st 4 w h = Some false).
    { apply (C31_monotone st (4, w + 2, h) (u, w + 2, h) Hs); [|exact F]. unfold within. destruct Hu as [<-|[<-|[<-|[]]]]; lia. }
    repeat split; [exact K|apply H1; cbn; auto|apply H1; cbn; auto].
  - intros (F & H6 & H8). split; [|exists 4; cbn; auto]. intros u [<-|[<-|[<-|[]]]]; [congruence|assumption|assumption].
Qed.

(** * C64: the text around the table *)
Definition heading := "# Balancers".
(** Text made of complete lines, none of which starts the table. *)
Definition complete_lines (lines : list string) : string := String.concat "" (map (fun l => l ++ nl) lines).
Definition plain (lines : list string) : Prop := Forall (fun l => one_line l /\ starts_with heading (l ++ nl) = false) lines.
Lemma concat_cons l r : String.concat "" (l :: r) = l ++ String.concat "" r.
Proof. destruct r as [|x r]; cbn; [rewrite string_app_nil; reflexivity|reflexivity]. Qed.
Lemma take_preamble_lines ls rest : plain ls ->
  take_preamble (map line_text ls ++ rest)%list = complete_lines ls ++ take_preamble rest.
Proof.
  induction 1 as [|l ls [O Nh] F IH]; [reflexivity|]. cbn [map app take_preamble]. unfold complete_lines. cbn [map]. rewrite concat_cons.
  change (line_text l) with (l ++ nl). unfold heading in Nh. rewrite Nh, IH. unfold complete_lines. rewrite !string_app_assoc. reflexivity.
Qed.
Lemma starts_with_prefix p s t : starts_with p s = true -> starts_with p (s ++ t) = true.
Proof.
  revert s. induction p as [|c p IH]; intros [|d s] H; cbn in *; try reflexivity; try discriminate.
  apply andb_prop in H. destruct H as [H1 H2]. rewrite H1. apply IH, H2.
Qed.
Lemma first_line s : s <> "" -> exists l r, readlines s = l :: r /\ (forall p, one_line p -> starts_with p s = true -> starts_with p l = true).
Proof.
  induction s as [|c s IH]; [congruence|]. intros _. cbn [readlines]. destruct (Ascii.eqb_spec c newline) as [Ec|Ec].
  - eexists. eexists. split; [reflexivity|]. intros [|d p] O H; [reflexivity|]. cbn [starts_with] in *. apply andb_prop in H. destruct H as [H1 H2].
    unfold one_line in O. cbn [all_chars] in O. apply andb_prop in O. destruct O as [O1 O2].
    destruct (Ascii.eqb_spec d c) as [Ed|]; [|discriminate]. subst d c. rewrite Ascii.eqb_refl in O1. discriminate.
  - destruct s as [|d s].
    + eexists. eexists. split; [reflexivity|]. auto.
    + destruct (IH ltac:(discriminate)) as (l & r & E & K). rewrite E. eexists. eexists. split; [reflexivity|].
      intros [|x p] O H; [reflexivity|]. cbn [starts_with] in *. apply andb_prop in H. destruct H as [H1 H2]. rewrite H1. cbn.
      unfold one_line in O. cbn [all_chars] in O. apply andb_prop in O. destruct O as [O1 O2]. apply K; [exact O2|exact H2].
Qed.
(** Exporting keeps the text before the table and replaces the table; without a
    table the whole text is kept. *)
Theorem C64_keeps_text {A} (stores : list (store A)) ls old_table : plain ls ->
  (old_table = "" \/ starts_with heading old_table = true) ->
  export_crosstable stores (Some (complete_lines ls ++ old_table)) =
  let* parts := omap store_text (sorted_stores stores) in
  Some (complete_lines ls ++ heading ++ nl ++ String.concat "" parts).
Proof.
  intros P O. unfold export_crosstable, preamble_of. destruct (omap store_text (sorted_stores stores)) as [parts|]; [|reflexivity]. cbn [obind].
  assert (F : Forall one_line ls) by (eapply Forall_impl; [|exact P]; cbn; tauto).
  unfold complete_lines at 1. change (fun l => l ++ nl) with line_text. rewrite (readlines_all ls old_table F), (take_preamble_lines ls _ P).
  assert (E : take_preamble (readlines old_table) = "").
  { destruct O as [->|H]; [reflexivity|]. destruct (first_line old_table) as (l & r & E & K); [intros ->; discriminate|].
    rewrite E. cbn [take_preamble]. change "# Balancers" with heading. rewrite (K heading); [reflexivity|reflexivity|exact H]. }
  rewrite E, string_app_nil. reflexivity.
Qed.
(** A missing file is like an empty one. *)
Theorem C64_missing {A} (stores : list (store A)) : export_crosstable stores None = export_crosstable stores (Some "").
Proof. reflexivity. Qed.
(** Exporting twice is the same as exporting once. *)
Theorem C64_twice {A} (stores : list (store A)) ls old_table text : plain ls ->
  (old_table = "" \/ starts_with heading old_table = true) ->
  export_crosstable stores (Some (complete_lines ls ++ old_table)) = Some text ->
  export_crosstable stores (Some text) = Some text.
Proof.
  intros P O E. rewrite (C64_keeps_text stores ls old_table P O) in E.
  destruct (omap store_text (sorted_stores stores)) as [parts|] eqn:Ep; [|discriminate]. cbn [obind] in E. assert (E' : complete_lines ls ++ heading ++ nl ++ String.concat "" parts = text) by congruence.
  rewrite <- E' at 1. rewrite (C64_keeps_text stores ls _ P); [|right; apply starts_with_prefix; reflexivity]. rewrite Ep. cbn [obind]. rewrite E'. reflexivity.
Qed.
(** It is not so for a text whose last line is not terminated: the heading is
    glued to it and no longer recognised, so that the table is repeated. *)
Definition stores64 : list (store string) := [db2].
Theorem C64_unterminated_refuted : exists text text', 
  export_crosstable stores64 (Some "Results") = Some text /\ export_crosstable stores64 (Some text) = Some text' /\
  text' <> text /\ starts_with "Results# Balancers" text = true.
Proof.
  eexists. eexists. split; [vm_compute; reflexivity|]. split; [vm_compute; reflexivity|]. split; [|vm_compute; reflexivity].
  intros E. apply (f_equal String.length) in E. vm_compute in E. discriminate.
Qed.
Example C64_met : plain ["Results"; ""; "## Details"] /\
  export_crosstable stores64 (Some (complete_lines ["Results"; ""; "## Details"] ++ "# Balancers" ++ nl ++ "old")) <> None.
Proof. split; [repeat constructor|vm_compute; discriminate]. Qed.

(** * C65: the order of the networks *)
Lemma digit_first n : 0 <= n -> exists c r, str_int n = String c r /\ is_digit c = true.
Proof.
  intros H. unfold str_int. destruct (to_int_digits n) as [H1 _]. destruct n as [|p|p]; [eexists; eexists; split; reflexivity| |lia].
  cbn [Z.to_int] in *. cbn. unfold DecimalString.NilZero.string_of_uint. destruct (Pos.to_uint p); [congruence| | | | | | | | | |]; eexists; eexists; split; reflexivity.
Qed.
Lemma digits_all d : all_chars is_digit (DecimalString.NilEmpty.string_of_uint d) = true.
Proof. induction d; cbn; auto. Qed.
Lemma str_int_digits n : 0 <= n -> all_chars is_digit (str_int n) = true.
Proof.
  intros H. unfold str_int. destruct (to_int_digits n) as [H1 _]. destruct n as [|p|p]; [reflexivity| |lia].
  cbn [Z.to_int] in *. cbn. unfold DecimalString.NilZero.string_of_uint. destruct (Pos.to_uint p); [congruence| | | | | | | | | |]; apply (digits_all (_ u)).
Qed.
Definition no_digit_first (s : string) : Prop := match s with String c _ => is_digit c = false | EmptyString => True end.
Lemma take_digits_all t s : all_chars is_digit t = true -> no_digit_first s -> take_digits (t ++ s) = (t, s).
Proof.
  intros H N. induction t as [|c t IH]; cbn [append take_digits].
  - destruct s as [|c s]; [reflexivity|]. cbn in *. rewrite N. reflexivity.
  - cbn [all_chars] in H. apply andb_prop in H. destruct H as [H1 H2]. rewrite H1, (IH H2). reflexivity.
Qed.
Lemma to_newline_all s : one_line s -> to_newline s = s.
Proof.
  unfold one_line. induction s as [|y s IH]; [reflexivity|]. cbn [all_chars to_newline]. intros H. apply andb_prop in H. destruct H as [H1 H2].
  destruct (Ascii.eqb y newline); [discriminate|]. rewrite IH by exact H2. reflexivity.
Qed.
(** Names such as 4x8 or 4-8-name are ordered by their numbers. *)
Theorem C65_key a b sep rest : 0 <= a -> 0 <= b -> sep = "x" \/ sep = "-" -> no_digit_first rest -> one_line rest ->
  ordering_key (str_int a ++ sep ++ str_int b ++ rest) = ((Some a, Some b), rest).
Proof.
  intros Ha Hb Hs Nr Or. unfold ordering_key.
  assert (Ns : no_digit_first (sep ++ str_int b ++ rest)) by (destruct Hs as [->| ->]; reflexivity).
  rewrite (take_digits_all _ _ (str_int_digits a Ha) Ns).
  assert (Es : exists x, sep = String x "" /\ (Ascii.eqb x "x" || Ascii.eqb x "-") = true) by (destruct Hs as [->| ->]; eexists; (split; [reflexivity|reflexivity])).
  destruct Es as (x & -> & Ex). cbn [append].
  assert (Va : digits_value (str_int a) = a) by (unfold digits_value; change str_int with decimal; rewrite parse_decimal; reflexivity).
  assert (Vb : digits_value (str_int b) = b) by (unfold digits_value; change str_int with decimal; rewrite parse_decimal; reflexivity).
  destruct (str_int a) as [|c r] eqn:E; [destruct (digit_first a Ha) as (c & r & E' & _); congruence|]. rewrite Ex.
  rewrite (take_digits_all _ _ (str_int_digits b Hb) Nr).
  destruct (str_int b) as [|c2 r2] eqn:E2; [destruct (digit_first b Hb) as (c2 & r2 & E' & _); congruence|].
  rewrite Va, Vb, to_newline_all by exact Or. reflexivity.
Qed.
(** Other names come last, by name. *)
Theorem C65_other name : no_digit_first name -> ordering_key name = ((None, None), name).
Proof. unfold ordering_key. destruct name as [|c s]; [reflexivity|]. cbn [no_digit_first take_digits]. intros ->. reflexivity. Qed.
Lemma string_le_total a : forall b, string_le a b = true \/ string_le b a = true.
Proof.
  induction a as [|c a IH]; intros [|d b]; cbn [string_le]; auto.
  destruct (Nat.ltb_spec (nat_of_ascii c) (nat_of_ascii d)), (Nat.ltb_spec (nat_of_ascii d) (nat_of_ascii c)); auto.
  destruct (Nat.eqb_spec (nat_of_ascii c) (nat_of_ascii d)), (Nat.eqb_spec (nat_of_ascii d) (nat_of_ascii c)); try lia. cbn. apply IH.
Qed.
Lemma string_le_trans a : forall b c, string_le a b = true -> string_le b c = true -> string_le a c = true.
Proof.
  induction a as [|x a IH]; intros [|y b] [|z c]; cbn [string_le]; try discriminate; auto.
  rewrite !orb_true_iff, !andb_true_iff, !Nat.ltb_lt, !Nat.eqb_eq. intros [H1|[H1 H1']] [H2|[H2 H2']]; try (left; lia). right. split; [lia|]. apply (IH b c); assumption.
Qed.
Lemma key_le_total a b : key_le a b = true \/ key_le b a = true.
Proof.
  destruct a as [[a1 a2] a3], b as [[b1 b2] b3]. unfold key_le.
  assert (T : forall x y, inf_lt x y = true \/ inf_lt y x = true \/ inf_eqb x y = true /\ inf_eqb y x = true).
  { intros [x|] [y|]; cbn; auto. destruct (Z.ltb_spec x y), (Z.ltb_spec y x), (Z.eqb_spec x y), (Z.eqb_spec y x); auto; lia. }
  destruct (T a1 b1) as [->|[->|[-> ->]]]; cbn; auto. destruct (T a2 b2) as [->|[->|[-> ->]]]; cbn; rewrite ?orb_true_r; auto.
  destruct (string_le_total a3 b3) as [->| ->]; rewrite ?orb_true_r; auto.
Qed.
Lemma key_le_trans a b c : key_le a b = true -> key_le b c = true -> key_le a c = true.
Proof.
  destruct a as [[a1 a2] a3], b as [[b1 b2] b3], c as [[c1 c2] c3]. unfold key_le. rewrite !orb_true_iff, !andb_true_iff, !orb_true_iff, !andb_true_iff.
  assert (Tl : forall x y z, inf_lt x y = true -> inf_lt y z = true -> inf_lt x z = true).
  { intros [x|] [y|] [z|]; cbn; try discriminate; auto. rewrite !Z.ltb_lt. lia. }
  assert (Te : forall x y, inf_eqb x y = true -> x = y).
  { intros [x|] [y|]; cbn; try discriminate; auto. intros E. apply Z.eqb_eq in E. congruence. }
  intros [H1|[H1 H1']] [H2|[H2 H2']]; try (apply Te in H1; subst); try (apply Te in H2; subst); auto.
  - left. apply (Tl _ b1); assumption.
  - right. split; [destruct c1; cbn; [apply Z.eqb_refl|reflexivity]|].
    destruct H1' as [H1|[H1 H1']], H2' as [H2|[H2 H2']]; try (apply Te in H1; subst); try (apply Te in H2; subst); auto.
    + left. apply (Tl _ b2); assumption.
    + right. split; [destruct c2; cbn; [apply Z.eqb_refl|reflexivity]|]. apply (string_le_trans _ b3); assumption.
Qed.
(** The stores are listed in this order, none is lost. *)
Theorem C65_sorted {A} (stores : list (store A)) :
  Permutation (sorted_stores stores) stores /\
  StronglySorted (fun s t => key_le (ordering_key (st_name s)) (ordering_key (st_name t)) = true) (sorted_stores stores).
Proof.
  split; [apply sort_perm|].
  apply (sort_sorted (fun s t : store A => key_le (ordering_key (st_name s)) (ordering_key (st_name t)))).
  - intros x y. apply key_le_total.
  - intros x y z. apply key_le_trans.
Qed.
(** Numbers are compared as numbers. *)
Theorem C65_numeric a b c d : key_le ((Some a, Some b), "") ((Some c, Some d), "") = true <-> a < c \/ a = c /\ b <= d.
Proof.
  unfold key_le. cbn. rewrite orb_true_iff, andb_true_iff, orb_true_iff, andb_true_iff, !Z.ltb_lt, !Z.eqb_eq. lia.
Qed.
Example C65_met : map st_name (sorted_stores (map (fun n => new_store (A:=string) n []) ["10x2"; "readme"; "2x10"; "9x9"; "2x2-b"; "2x2"])) =
  ["2x2"; "2x2-b"; "2x10"; "9x9"; "10x2"; "readme"].
Proof. vm_compute. reflexivity. Qed.

(** * C66: exporting query results as blueprints *)
(** The level that is chosen is the cheapest whose undergrounds are long enough,
    or the most expensive one. *)
Theorem C66_belt_level u :
  get_belt_level u = if u <=? 4 then "normal" else if u <=? 6 then "fast" else "express".
Proof. unfold get_belt_level. cbn. destruct (u <=? 4), (u <=? 6), (u <=? 8); reflexivity. Qed.
Theorem C66_belt_level_enough u name len : In (name, len) maximum_underground_lengths -> u <= len ->
  exists len', In (get_belt_level u, len') maximum_underground_lengths /\ u <= len' <= len.
Proof.
  intros H L. rewrite C66_belt_level. destruct (Z.leb_spec u 4); [exists 4|destruct (Z.leb_spec u 6); [exists 6|exists 8]];
    (destruct H as [[= <- <-]|[[= <- <-]|[[= <- <-]|[]]]]; (split; [cbn; auto|lia])).
Qed.
(** With a TransportBeltLevel make_blueprint works on every solution. *)
Lemma make_entities_enum l n cs : make_entities_for (LevelEnum l) n cs = make_entities l n cs.
Proof.
  revert n. induction cs as [|[[x y] t] cs IH]; intros n; [reflexivity|]. cbn [make_entities_for make_entities].
  assert (E : tile_entity_for (LevelEnum l) n (x, y, t) = tile_entity l n (x, y, t)) by (destruct t; try (destruct head); reflexivity).
  rewrite E. destruct (tile_entity l n (x, y, t)) as [[e|]|]; cbn [obind]; [rewrite IH; reflexivity|apply IH|reflexivity].
Qed.
Theorem C66_enum l g : make_blueprint_for (LevelEnum l) g = make_blueprint l g.
Proof. apply make_entities_enum. Qed.
(** The query passes the level's name, so that every export fails as soon as the
    layout contains a belt, an underground or a splitter. *)
Definition belt_like (t : tile) : Prop :=
  match t with Belt _ _ | Underground _ _ | Splitter _ true => True | _ => False end.
Theorem C66_export_refuted u g x y t : In ((x, y), t) (enum_grid g) -> belt_like t -> export_solution u g = None.
Proof.
  unfold export_solution, make_blueprint_for. generalize (get_belt_level u). intros name. generalize 1. intros n H B. revert n H.
  induction (enum_grid g) as [|c cs IH]; intros n H; [destruct H|]. cbn [make_entities_for]. destruct H as [->|H].
  - destruct t; try (destruct head); try destruct B; reflexivity.
  - destruct (tile_entity_for (LevelName name) n c) as [[e|]|]; cbn [obind]; [|apply IH, H|reflexivity]. rewrite IH by exact H. reflexivity.
Qed.
Example C66_met : export_solution 4 [[Belt RIGHT RIGHT]] = None /\ make_blueprint_for (LevelEnum NORMAL) [[Belt RIGHT RIGHT]] <> None.
Proof. vm_compute. split; [reflexivity|discriminate]. Qed.

Print Assumptions C38_marks.
Print Assumptions C38_impossible_refuted.
Print Assumptions C38_impossible_means.
Print Assumptions C64_twice.
Print Assumptions C64_unterminated_refuted.
Print Assumptions C65_key.
Print Assumptions C65_sorted.
Print Assumptions C66_export_refuted.
