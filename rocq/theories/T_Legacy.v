(** Property theorems C103: cells in the older formats. *)
From Coq Require Import String ZArith List Bool Lia.
From Verif Require Import M_Json Spec_Tile M_Tile M_Blueprint P_Tile T_Tile Spec_Legacy M_Legacy P_Legacy.
Import ListNotations.
Open Scope Z_scope.

(** The claim one would rely on: a cell that describes a tile in an older format
    is read as that tile.  It is false for every belt in either format: reading
    raises. *)
Theorem C103_belts_refuted j i o : jget "tile" j = None -> describes j (Belt i o) -> read_item j = None.
Proof. intros T D. exact (read_described j _ T D). Qed.

(** The other tiles are read, with the numbers of the record for directions. *)
Theorem C103_read j t : jget "tile" j = None -> describes j t ->
  match t with
  | Empty => read_item j = Some (Old OldEmpty)
  | Underground d e => read_item j = Some (Old (OldUnderground (JNum (number d)) e))
  | Splitter d h => exists v, truthy v = h /\ read_item j = Some (Old (OldSplitter (JNum (number d)) v))
  | Inserter d k => read_item j = Some (Old (OldInserter (JNum (number d)) (JNum k)))
  | Assembler x y => read_item j = Some (Old (OldMachine (JNum x) (JNum y)))
  | _ => read_item j = None
  end.
Proof.
  intros T D. pose proof (read_described j t T D) as R. destruct t as [| |i o|d e|d h|d k|x y]; try exact R; try (inversion D; fail).
  all: destruct R as (c & E & A); destruct c as [c|[|ci co|cd ce|cd ch|cd ct|cx cy]]; cbn in A;
    repeat match type of A with context [match ?x with JNull => _ | _ => _ end] => is_var x; destruct x end; try contradiction; try exact E; destruct A as [-> A].
  - subst. exact E.
  - eexists. split; [exact A|exact E].
  - subst. exact E.
  - subst. exact E.
Qed.

(** A machine that is read has its coordinates among 0, 1 and 2 (True and False
    count as 1 and 0). *)
Theorem C103_machine j x y : read_item j = Some (Old (OldMachine x y)) ->
  forall z, z = x \/ z = y -> (exists n, z = JNum n /\ 0 <= n < 3) \/ exists b, z = JBool b.
Proof.
  assert (B : forall a b, old_machine a b = Some (OldMachine x y) -> forall z, z = x \/ z = y -> (exists n, z = JNum n /\ 0 <= n < 3) \/ exists b, z = JBool b).
  { intros a b. unfold old_machine. destruct (below_three a) eqn:Ea; [|discriminate]. destruct (below_three b) eqn:Eb; [|discriminate]. cbn [andb]. intros H.
    assert (a = x /\ b = y) as [-> ->] by (split; congruence). assert (P : forall z, below_three z = true -> (exists n, z = JNum n /\ 0 <= n < 3) \/ exists b, z = JBool b).
    { intros z. destruct z as [|v|n|s|l|l]; cbn [below_three]; try discriminate; [right; exists v; reflexivity|]. intros K. apply andb_true_iff in K. destruct K as [K1 K2]. apply Z.leb_le in K1. apply Z.ltb_lt in K2. left. exists n. auto. }
    intros z [-> | ->]; apply P; assumption. }
  unfold read_item. destruct (jget "tile" j) as [v|]; [destruct (tile_read v); discriminate|]. destruct (jget "input_direction" j) as [i|]; [|discriminate]. destruct (jget "output_direction" j) as [o|]; [|discriminate]. cbn [obind].
  intros H. destruct (if has_key "is_empty" j then _ else _) as [t|] eqn:E; [|discriminate]. cbn [obind] in H. assert (t = OldMachine x y) by congruence. subst t. clear H.
  destruct (has_key "is_empty" j).
  - unfold read_marked in E. repeat match type of E with
      | obind ?a _ = _ => destruct a eqn:?; cbn [obind] in E; [|discriminate]
      | (if ?b then _ else _) = _ => destruct b eqn:?
      | match ?a with Some _ => _ | None => _ end = _ => destruct a eqn:?
      end; try discriminate; try exact (B _ _ E).
    unfold old_belt in E. match type of E with match ?a with _ => _ end = _ => destruct a; discriminate end.
  - unfold read_plain in E. repeat match type of E with
      | obind ?a _ = _ => destruct a eqn:?; cbn [obind] in E; [|discriminate]
      | (if ?b then _ else _) = _ => destruct b eqn:?
      | (let _ := _ in _) = _ => cbv zeta in E
      end; try discriminate. unfold old_belt in E. destruct i; discriminate.
Qed.

(** But nothing can be done with the result: the command "blueprint encode" gives
    a layout described in the older formats no entity, and raises if there is a
    tile in it other than empty ones and second halves of splitters. *)
Theorem C103_encode l jss g : Forall2 (Forall2 (fun j t => jget "tile" j = None /\ describes j t)) jss g ->
  (forall r t, In r g -> In t r -> t = Empty \/ (exists d, t = Splitter d false)) /\ encode_line l jss = Some [] \/
  (exists r t, In r g /\ In t r /\ t <> Empty /\ forall d, t <> Splitter d false) /\ encode_line l jss = None.
Proof.
  intros F. rewrite (encode_described l jss g F). destruct (forallb traceless (concat g)) eqn:E; [left|right]; (split; [|reflexivity]).
  - intros r t Ir It. rewrite forallb_forall in E. specialize (E t). rewrite in_concat in E. specialize (E (ex_intro _ r (conj Ir It))). destruct t as [| |i o|d e|d h|d k|x y]; try discriminate; [left; reflexivity|]. destruct h; [discriminate|]. right. exists d. reflexivity.
  - assert (X : exists t, In t (concat g) /\ traceless t = false).
    { clear F. induction (concat g) as [|t ts IH]; [discriminate|]. cbn in E. destruct (traceless t) eqn:K; [|exists t; split; [left; reflexivity|exact K]]. destruct (IH E) as (u & Iu & Ku). exists u. split; [right; exact Iu|exact Ku]. }
    destruct X as (t & It & K). apply in_concat in It. destruct It as (r & Ir & It). exists r, t. split; [exact Ir|]. split; [exact It|]. split; [intros ->; discriminate|]. intros d ->. discriminate.
Qed.

(** In a layout of cells in either format, whatever comes out is what comes out of
    the cells of the present format alone. *)
Theorem C103_mixed l jss es : encode_line l jss = Some es ->
  exists g, make_blueprint l g = Some es /\
    Forall2 (Forall2 (fun j t => match jget "tile" j with Some v => tile_read v = Some t | None => t = Empty end)) jss g.
Proof.
  unfold encode_line. destruct (omap (omap read_item) jss) as [css|] eqn:E; [|discriminate]. cbn [obind]. intros H. apply entities_of_new in H. rewrite erase_rows in H.
  exists (map (map (fun c => match c with New t => t | Old _ => Empty end)) css). split; [exact H|]. clear H.
  assert (One : forall j c, read_item j = Some c -> match jget "tile" j with Some v => tile_read v = Some (match c with New t => t | Old _ => Empty end) | None => (match c with New t => t | Old _ => Empty end) = Empty end).
  { intros j c. unfold read_item. destruct (jget "tile" j) as [v|].
    - destruct (tile_read v); cbn; [|discriminate]. intros [= <-]. reflexivity.
    - destruct (jget "input_direction" j); cbn; [|discriminate]. destruct (jget "output_direction" j); cbn; [|discriminate]. destruct (if has_key "is_empty" j then _ else _); cbn; [|discriminate]. intros [= <-]. reflexivity. }
  revert css E. induction jss as [|js jss IH]; intros css E; cbn in E; [injection E as <-; constructor|].
  destruct (omap read_item js) as [cs|] eqn:Er; [|discriminate]. cbn in E. destruct (omap (omap read_item) jss) as [css'|]; [|discriminate]. cbn in E. injection E as <-. cbn. constructor; [|apply IH; reflexivity].
  revert cs Er. induction js as [|j js IHj]; intros cs Er; cbn in Er; [injection Er as <-; constructor|]. destruct (read_item j) as [c|] eqn:Ec; [|discriminate]. cbn in Er. destruct (omap read_item js) as [cs'|]; [|discriminate]. cbn in Er. injection Er as <-. cbn. constructor; [apply One; exact Ec|apply IHj; reflexivity].
Qed.
(** A layout written in the present format, valid tile by valid tile, is encoded
    as it is. *)
Theorem C103_present l g : (forall r t, In r g -> In t r -> valid_tile t) ->
  encode_line l (map (map (fun t => JObj [("tile"%string, tile_write t)])) g) = make_blueprint l g.
Proof.
  intros V.
  assert (R : forall r, (forall t, In t r -> valid_tile t) -> omap read_item (map (fun t => JObj [("tile"%string, tile_write t)]) r) = Some (map New r)).
  { induction r as [|t r IH]; intros Vr; [reflexivity|]. cbn [map omap].
    assert (E : read_item (JObj [("tile"%string, tile_write t)]) = Some (New t)) by (unfold read_item; cbn -[tile_read tile_write]; rewrite (C16_read_write t (Vr t (or_introl eq_refl))); reflexivity).
    rewrite E. cbn [obind]. rewrite IH by (intros u I; apply Vr; right; exact I). reflexivity. }
  assert (Q : omap (omap read_item) (map (map (fun t => JObj [("tile"%string, tile_write t)])) g) = Some (map (map New) g)).
  { induction g as [|r g IH]; [reflexivity|]. cbn [map omap]. rewrite R by (intros t; apply V; left; reflexivity). cbn [obind]. rewrite IH by (intros r' t I; apply V; right; exact I). reflexivity. }
  unfold encode_line. rewrite Q. cbn [obind]. unfold make_blueprint, enum_grid.
  assert (N : forall cs n, cell_entities l n (map (fun c : (Z * Z) * tile => (fst c, New (snd c))) cs) = make_entities l n cs).
  { induction cs as [|[p t] cs IH]; intros n; [reflexivity|]. cbn [map cell_entities make_entities fst snd]. unfold cell_entity. cbn [fst snd]. destruct (tile_entity l n (p, t)) as [[e|]|]; cbn; [rewrite IH; reflexivity|apply IH|reflexivity]. }
  rewrite <- N. f_equal. clear. enough (Y : forall g y, cells_rows y (map (map New) g) = map (fun c : (Z * Z) * tile => (fst c, New (snd c))) (enum_rows y g)) by apply Y. clear.
  assert (Rw : forall r x y, cells_row x y (map New r) = map (fun c : (Z * Z) * tile => (fst c, New (snd c))) (enum_row x y r)).
  { induction r as [|t r IH]; intros x y; [reflexivity|]. cbn. rewrite IH. reflexivity. }
  induction g as [|r g IH]; intros y; [reflexivity|]. cbn. rewrite map_app, Rw, IH. reflexivity.
Qed.

Example C103_a_belt : describes (JObj [("is_splitter", JBool false); ("input_direction", JNum 0); ("output_direction", JNum 1)])%string (Belt RIGHT UP).
Proof. apply plain_belt; [reflexivity..|split; reflexivity]. Qed.
Example C103_a_row : Forall2 (fun j t => jget "tile" j = None /\ describes j t)
  [JObj [("is_splitter", JBool false); ("input_direction", JNum 2); ("output_direction", JNull)];
   JObj [("is_splitter", JBool true); ("is_splitter_head", JBool false); ("input_direction", JNum 1); ("output_direction", JNum 1)];
   JObj [("is_empty", JBool true); ("input_direction", JNull); ("output_direction", JNull)];
   JObj [("is_empty", JBool false); ("is_belt", JBool false); ("is_underground_in", JBool false); ("is_underground_out", JBool false); ("is_splitter", JNum 1); ("colour_direction", JNum 3); ("input_direction", JNull); ("output_direction", JNull)]]%string
  [Underground LEFT true; Splitter UP false; Empty; Splitter DOWN true].
Proof.
  repeat (constructor; [split; [reflexivity|]|]).
  - apply plain_entrance; [reflexivity..|split; reflexivity].
  - apply plain_splitter; [reflexivity..|split; reflexivity].
  - apply (marked_empty _ None None); [reflexivity|split; reflexivity].
  - apply (marked_splitter _ DOWN 1 None None); [reflexivity..|split; reflexivity|auto].
  - constructor.
Qed.
Definition unmarked_record (more : list (string * json)) : json := JObj ([("is_empty", JBool false); ("is_belt", JBool false); ("is_underground_in", JBool false); ("is_underground_out", JBool false); ("input_direction", JNull); ("output_direction", JNull)]%string ++ more).
Example C103_more : describes (unmarked_record [("is_splitter", JBool true); ("splitter_direction", JNum 2); ("splitter_side", JBool true)])%string (Splitter LEFT true) /\
  describes (unmarked_record [("is_splitter", JBool false); ("is_inserter", JNum 1); ("inserter_direction", JNum 3)])%string (Inserter DOWN 1) /\
  describes (unmarked_record [("is_splitter", JNull); ("is_inserter", JNull); ("is_assembling_machine", JBool true); ("assembling_x", JNum 2); ("assembling_y", JNum 0)])%string (Assembler 2 0).
Proof.
  assert (U : forall more, unmarked (unmarked_record more)) by (intros more; repeat split).
  split; [|split].
  - apply (marked_side _ LEFT true None None); [apply U|reflexivity..|split; reflexivity].
  - apply (marked_inserter _ DOWN 1 None None); [apply U|left; reflexivity|reflexivity..|split; reflexivity].
  - apply (marked_machine _ 2 0 None None); [apply U|right; reflexivity|reflexivity..|lia|lia|split; reflexivity].
Qed.
Example C103_some_mixed : exists es, encode_line NORMAL
  [[JObj [("tile"%string, tile_write (Belt RIGHT RIGHT))];
    JObj [("is_empty", JBool true); ("input_direction", JNull); ("output_direction", JNull)]%string]] = Some es /\ es <> [].
Proof. eexists. split; [vm_compute; reflexivity|discriminate]. Qed.

Print Assumptions C103_belts_refuted.
Print Assumptions C103_read.
Print Assumptions C103_machine.
Print Assumptions C103_encode.
Print Assumptions C103_mixed.
Print Assumptions C103_present.
