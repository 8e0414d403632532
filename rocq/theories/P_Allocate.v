(** The tiles allocated by a grid have the members used in M_Grid.v, and
    parsing them reads those members. *)
From Coq Require Import String ZArith List Bool Lia.
From Verif Require Import Spec_Cnf Spec_Tile Spec_Layout M_Json M_Tile M_Util M_Card M_Template M_Grid P_List P_Cnf P_Template P_Grid.
Import ListNotations.
Local Open Scope string_scope.
Open Scope Z_scope.

Lemma nth_error_seq' n s j : (j < n)%nat -> nth_error (seq s n) j = Some (s + j)%nat.
Proof.
  revert s j. induction n as [|n IH]; intros s j H; [lia|]. destruct j; cbn; [f_equal; lia|]. rewrite IH by lia. f_equal. lia.
Qed.

Lemma in_firstn {A} n (l : list A) x : In x (firstn n l) -> In x l.
Proof. intros H. rewrite <- (firstn_skipn n l). apply in_or_app. left. exact H. Qed.
Lemma in_skipn {A} n (l : list A) x : In x (skipn n l) -> In x l.
Proof. intros H. rewrite <- (firstn_skipn n l). apply in_or_app. right. exact H. Qed.

(** ** Members of a composite *)
Lemma comp_go_app fs gs top :
  comp_go (fs ++ gs) top =
    (let '(l, t1) := comp_go fs top in let '(m, t2) := comp_go gs t1 in ((l ++ m)%list, t2)).
Proof.
  revert top. induction fs as [|[n c] fs IH]; intros top; cbn [app comp_go].
  - destruct (comp_go gs top). reflexivity.
  - destruct (instantiate c top) as [i t1]. rewrite IH. destruct (comp_go fs t1) as [l t2].
    destruct (comp_go gs t2). reflexivity.
Qed.

Lemma comp_go_names fs top : map fst (fst (comp_go fs top)) = map fst fs.
Proof.
  revert top. induction fs as [|[n c] fs IH]; intros top; cbn [comp_go]; [reflexivity|].
  destruct (instantiate c top) as [i t1]. specialize (IH t1). destruct (comp_go fs t1). cbn in *. f_equal. exact IH.
Qed.

Lemma assoc_in {A} (l : list (string * A)) k v : NoDup (map fst l) -> In (k, v) l -> assoc k l = Some v.
Proof.
  induction l as [|[k' v'] l IH]; cbn [map fst assoc In]; intros Hn Hi; [contradiction|].
  inversion Hn as [|x xs Hx Hxs]. subst. destruct Hi as [[= -> ->]|Hi].
  - rewrite String.eqb_refl. reflexivity.
  - destruct (String.eqb_spec k k') as [->|_]; [|apply IH; assumption].
    exfalso. apply Hx. apply in_map_iff. exists (k', v). auto.
Qed.

Lemma assoc_app {A} (l m : list (string * A)) k : assoc k (l ++ m) = match assoc k l with Some v => Some v | None => assoc k m end.
Proof. induction l as [|[k' v'] l IH]; cbn; [reflexivity|]. destruct (String.eqb k k'); auto. Qed.

Definition parse_fields (is_ : list (string * instance)) (mapping : Z -> option bool) :=
  fix go (fs : list (string * template)) : option (list (string * parsed)) :=
    match fs with
    | [] => Some []
    | (name, c) :: rest =>
        let* x := assoc name is_ in
        let* p := parse c x mapping in
        let* ps := go rest in Some ((name, p) :: ps)
    end.
Lemma parse_comp fs is_ mapping :
  parse (TComposite fs) (IRec is_) mapping = let* ps := parse_fields is_ mapping fs in Some (PRec ps).
Proof. reflexivity. Qed.

(** ** Total parsing of an instance whose variables all have a value *)
(** Every signed number of the template has at least two digits (read_number
    asserts it); the shape of
    arrays is positive (otherwise numpy makes a value that is not a list) and
    the names of a composite are distinct. *)
Fixpoint parsable (t : template) : Prop :=
  match t with
  | TBool => True
  | TSized (Number true) n => (1 < n)%nat
  | TSized _ _ => True
  | TArray c shape => shape <> [] /\ parsable c
  | TComposite fs =>
      NoDup (map fst fs) /\ (fix go (fs : list (string * template)) : Prop :=
                               match fs with [] => True | f :: r => parsable (snd f) /\ go r end) fs
  end.

Lemma parsable_fields fs : parsable (TComposite fs) <-> NoDup (map fst fs) /\ Forall (fun f => parsable (snd f)) fs.
Proof.
  cbn [parsable]. split; intros [Hn H]; (split; [exact Hn|]); clear Hn.
  - induction fs as [|f r IH]; constructor; destruct H; auto.
  - induction H; cbn; auto.
Qed.

Lemma omap_total {A B} (f : A -> option B) l : (forall x, In x l -> exists y, f x = Some y) ->
  exists ys, omap f l = Some ys /\ length ys = length l.
Proof.
  induction l as [|x l IH]; intros H; [exists []; auto|].
  destruct (H x (or_introl eq_refl)) as [y Hy]. destruct IH as (ys & Hys & Hl); [intros z Hz; apply H; right; exact Hz|].
  exists (y :: ys). cbn. rewrite Hy. cbn. rewrite Hys. cbn. split; [reflexivity|cbn; f_equal; exact Hl].
Qed.

Lemma omap_lits vs : omap (fun j => match j with ILit v => Some v | _ => None end) (map ILit vs) = Some vs.
Proof. induction vs as [|v vs IH]; cbn; [reflexivity|]. rewrite IH. reflexivity. Qed.

Lemma omap_map_some {A B C} (f : B -> option C) (g : A -> B) (h : A -> C) l :
  (forall x, In x l -> f (g x) = Some (h x)) -> omap f (map g l) = Some (map h l).
Proof.
  induction l as [|x l IH]; intros H; cbn; [reflexivity|]. rewrite (H x (or_introl eq_refl)). cbn.
  rewrite IH; [reflexivity|]. intros z Hz. apply H. right. exact Hz.
Qed.

Definition parse_array (c : template) (mapping : Z -> option bool) :=
  fix recurse (shape : list nat) (i : instance) : option parsed :=
    match shape with
    | [] => parse c i mapping
    | s :: rest =>
        match i with
        | IList l =>
            let* ps := omap (fun j => let* x := nth_error l j in recurse rest x) (seq 0 s) in
            Some (PList ps)
        | _ => None
        end
    end.

Lemma reshape_shape_parse c mapping : forall shape l, length l = shape_size shape ->
  (forall i, In i l -> exists r, parse c i mapping = Some r) ->
  exists r, parse_array c mapping shape (reshape shape l) = Some r.
Proof.
  induction shape as [|s rest IH]; intros l Hl H; cbn [reshape parse_array].
  - cbn in Hl. destruct l as [|i [|]]; try discriminate. apply H. left. reflexivity.
  - destruct (omap_total (fun j => let* x := nth_error
        (map (fun i => reshape rest (firstn (shape_size rest) (skipn (i * shape_size rest) l))) (seq 0 s)) j in
        parse_array c mapping rest x) (seq 0 s)) as (ys & Hys & _).
    + intros j Hj. apply in_seq in Hj. rewrite nth_error_map, nth_error_seq' by lia. cbn [option_map obind Nat.add].
      apply IH.
      * cbn [shape_size fold_right] in Hl. fold (shape_size rest) in Hl. rewrite firstn_length, skipn_length, Hl.
        assert (j * shape_size rest + shape_size rest <= s * shape_size rest)%nat by (destruct Hj; nia). lia.
      * intros i Hi. apply H. apply in_firstn in Hi. apply in_skipn in Hi. exact Hi.
    + rewrite Hys. cbn. eexists. reflexivity.
Qed.

Lemma parse_total t : parsable t -> forall top mapping,
  (forall v, In v (fresh top (variable_count t)) -> mapping v <> None) ->
  exists r, parse t (fst (instantiate t top)) mapping = Some r.
Proof.
  induction t as [|k n|c s IH|fs IH] using template_rect'; intros Ht top mapping HM.
  - cbn. specialize (HM (top + 1)). cbn in HM. destruct (mapping (top + 1)); [eexists; reflexivity|tauto].
  - cbn [instantiate fst parse variable_count] in *. unfold parse_sized, lits_of. rewrite omap_lits. cbn [obind].
    destruct (omap_total mapping (fresh top n)) as (bs & -> & L).
    { intros v Hv. specialize (HM v Hv). destruct (mapping v); [eauto|tauto]. }
    cbn [obind]. destruct k as [| |[|]]; try (eexists; reflexivity).
    cbn in Ht. rewrite fresh_length in L. unfold read_number_signed. destruct bs as [|b1 [|b2 r]]; cbn [length] in L; try lia.
    eexists. reflexivity.
  - cbn [instantiate variable_count] in *. destruct Ht as [Hs Hc].
    destruct (repeat_instantiate_spec (instantiate c) _ (shape_size s) top (instantiate_fresh c)) as (L & _ & F & N).
    destruct (repeat_instantiate _ _ _) as [l t2]. cbn [fst] in *.
    assert (exists l', reshape s l = IList l') as [l' El] by (destruct s; [contradiction|cbn; eexists; reflexivity]).
    cbn [parse]. rewrite El. change (exists r, parse_array c mapping s (IList l') = Some r). rewrite <- El.
    apply reshape_shape_parse; [exact L|]. intros i Hi. apply In_nth_error in Hi. destruct Hi as [j Hj].
    assert (Hlt : (j < shape_size s)%nat) by (rewrite <- L; apply nth_error_Some; congruence).
    rewrite (N j Hlt) in Hj. injection Hj as <-. apply IH; [exact Hc|]. intros v Hv. apply HM. apply fresh_In in Hv. apply fresh_In.
    assert (j * variable_count c + variable_count c <= shape_size s * variable_count c)%nat by nia. lia.
  - rewrite parsable_fields in Ht. destruct Ht as [Hn Hf].
    rewrite instantiate_comp. cbn [variable_count] in HM.
    destruct (comp_go fs top) as [is_ t2] eqn:E. cbn [fst]. rewrite parse_comp.
    assert (Hnames : NoDup (map fst is_)) by (pose proof (comp_go_names fs top) as N; rewrite E in N; cbn in N; rewrite N; exact Hn).
    assert (Hsub : forall f, In f (fst (comp_go fs top)) -> In f is_) by (rewrite E; auto).
    clear E Hn t2. revert top HM Hsub. induction IH as [|[name c] fs Hc _ IHfs]; intros top HM Hsub; cbn [parse_fields]; [eexists; reflexivity|].
    cbn [comp_go] in Hsub. pose proof (proj1 (instantiate_fresh c top)) as Et.
    destruct (instantiate c top) as [i t1] eqn:Ei. cbn [snd] in Et. inversion Hf as [|x xs Hpc Hpf]; subst. cbn [snd] in *.
    rewrite (assoc_in is_ name i Hnames) by (apply Hsub; destruct (comp_go fs _); left; reflexivity). cbn [obind].
    cbn [fold_right snd] in HM.
    destruct (Hc Hpc top mapping) as [r Hr]; [intros v Hv; apply HM; rewrite fresh_In in *; lia|].
    rewrite Ei in Hr. cbn [fst] in Hr. rewrite Hr. cbn [obind].
    destruct (IHfs Hpf (top + Z.of_nat (variable_count c))) as [ps Hps].
    + intros v Hv. apply HM. rewrite fresh_In in *. lia.
    + intros f Hin. apply Hsub. destruct (comp_go fs _). right. exact Hin.
    + fold (parse_fields is_ mapping) in *. destruct (parse_fields is_ mapping fs); [|discriminate]. cbn. eexists. reflexivity.
Qed.

(** Reading a composite: the value of a field is the parse of its instance. *)
Lemma parse_fields_assoc is_ mapping fs ps : NoDup (map fst fs) -> parse_fields is_ mapping fs = Some ps ->
  forall name c i, In (name, c) fs -> assoc name is_ = Some i -> assoc name ps = parse c i mapping.
Proof.
  revert ps. induction fs as [|[n c'] fs IH]; intros ps Hn E name c i Hin Ha; [contradiction|].
  cbn [parse_fields] in E. inversion Hn as [|x xs Hx Hxs]; subst.
  destruct (assoc n is_) as [i'|] eqn:Ei; [|discriminate]. cbn [obind] in E.
  destruct (parse c' i' mapping) as [p|] eqn:Ep; [|discriminate]. cbn [obind] in E.
  fold (parse_fields is_ mapping) in E.
  destruct (parse_fields is_ mapping fs) as [ps'|] eqn:Eps; [|discriminate]. cbn [obind] in E. injection E as <-.
  cbn [assoc]. destruct (String.eqb_spec name n) as [->|Ne].
  - destruct Hin as [[= ->]|Hin]; [congruence|]. exfalso. apply Hx. apply in_map_iff. exists (n, c). auto.
  - destruct Hin as [[= -> ->]|Hin]; [congruence|]. apply (IH ps' Hxs eq_refl name c i Hin Ha).
Qed.

(** ** The tiles of a grid *)
Lemma tile_instance_spec t h w top x y : 0 <= x < w -> 0 <= y < h ->
  tile_instance (fst (instantiate_rows t (Z.to_nat h) (Z.to_nat w) top)) x y
  = Some (fst (instantiate t (top + (y * w + x) * Z.of_nat (variable_count t)))).
Proof.
  intros Hx Hy. unfold tile_instance. replace ((0 <=? x) && (0 <=? y)) with true by (symmetry; rewrite andb_true_iff, !Z.leb_le; lia).
  destruct (instantiate_rows_spec t (Z.to_nat h) (Z.to_nat w) top) as (_ & _ & _ & N).
  destruct (N (Z.to_nat y) (Z.to_nat x)) as (r & -> & E); [lia|lia|]. cbn [obind]. rewrite E. do 3 f_equal.
  f_equal. rewrite Nat2Z.inj_mul, Nat2Z.inj_add, Nat2Z.inj_mul, !Z2Nat.id by lia. reflexivity.
Qed.

(** The fields of a tile, by name. *)
Definition lit_fields (t : tvars) : list (string * lit) :=
  [("is_belt", is_belt t); ("is_empty", is_empty t); ("is_splitter", is_splitter t);
   ("is_underground_in", is_underground_in t); ("is_underground_out", is_underground_out t);
   ("is_splitter_head", is_splitter_head t); ("is_input", is_input t); ("is_output", is_output t)].
Definition list_fields (t : tvars) : list (string * list lit) :=
  [("input_direction", inputs t); ("output_direction", outputs t); ("underground", map (underground t) directions)].
Definition colour_fields (g : grid) (t : tvars) : list (string * list lit) :=
  match gcolours g with
  | None => []
  | Some _ => [("colour", colour t); ("colour_ux", colour_ux t); ("colour_uy", colour_uy t)]
  end.
Definition member_fields (g : grid) (t : tvars) : list (string * instance) :=
  (map (fun f => (fst f, ILit (snd f))) (lit_fields t) ++
   map (fun f => (fst f, IList (map ILit (snd f)))) (list_fields t ++ colour_fields g t))%list.

Lemma instantiate_tile g b :
  fst (instantiate (tile_template g) b) =
  IRec (member_fields g (tile_vars (colour_bits g) b) ++
        fst (comp_go (gextras g) (b + 20 + 3 * Z.of_nat (colour_bits g))))%list.
Proof.
  unfold tile_template. rewrite instantiate_comp, app_assoc, comp_go_app.
  assert (E : comp_go ([("is_belt", TBool); ("is_empty", TBool); ("is_splitter", TBool); ("is_underground_in", TBool);
      ("is_underground_out", TBool); ("is_splitter_head", TBool); ("is_input", TBool); ("is_output", TBool);
      ("input_direction", TSized OneHot 4); ("output_direction", TSized OneHot 4);
      ("underground", TArray TBool [4%nat])] ++
     match gcolours g with
     | None => []
     | Some _ => [("colour", TSized (Number false) (colour_bits g));
                  ("colour_ux", TSized (Number false) (colour_bits g));
                  ("colour_uy", TSized (Number false) (colour_bits g))]
     end)%list b
   = (member_fields g (tile_vars (colour_bits g) b), b + 20 + 3 * Z.of_nat (colour_bits g))).
  { rewrite comp_go_app. cbn [comp_go instantiate fresh map repeat_instantiate shape_size fold_right Nat.mul Nat.add].
    cbn [reshape seq map firstn skipn nth Nat.mul Nat.add shape_size fold_right].
    unfold member_fields, lit_fields, list_fields, colour_fields, inputs, outputs, directions.
    cbn [tile_vars is_belt is_empty is_splitter is_underground_in is_underground_out is_splitter_head is_input is_output
         input_dir output_dir underground colour colour_ux colour_uy map dir_value fst snd app].
    assert (Hb : gcolours g = None -> colour_bits g = 0%nat) by (unfold colour_bits; intros ->; reflexivity).
    set (n := colour_bits g) in *. clearbody n.
    destruct (gcolours g) as [c|]; cbn [comp_go instantiate map app fst snd]; [clear Hb|rewrite (Hb eq_refl)];
      change (Z.of_nat 4) with 4; change (Z.of_nat 0) with 0;
      (f_equal; [|lia]);
      repeat match goal with |- (_ :: _) = (_ :: _) => apply f_equal2 end; try reflexivity;
      apply f_equal2; try reflexivity;
      repeat match goal with
        | |- IList _ = IList _ => apply f_equal
        | |- ILit _ = ILit _ => apply f_equal
        | |- (_ :: _) = (_ :: _) => apply f_equal2
        | |- map ILit _ = map ILit _ => apply f_equal
        | |- fresh _ _ = fresh _ _ => apply f_equal2
        end; try reflexivity; lia. }
  rewrite E. destruct (comp_go (gextras g) _) as [l t2]. reflexivity.
Qed.

(** ** Parsing a tile *)
(** The assignment given by a mapping. *)
Definition of_mapping (mapping : Z -> option bool) : assignment := fun v => match mapping v with Some b => b | None => false end.

(** Names of the fields that are not extras. *)
Definition own_names (g : grid) : list string :=
  (["is_belt"; "is_empty"; "is_splitter"; "is_underground_in"; "is_underground_out"; "is_splitter_head"; "is_input";
    "is_output"; "input_direction"; "output_direction"; "underground"] ++
   match gcolours g with None => [] | Some _ => ["colour"; "colour_ux"; "colour_uy"] end)%list.

(** The extra fields are proper: new names, parsable. *)
Definition wf_extras (g : grid) : Prop :=
  NoDup (own_names g ++ map fst (gextras g))%list /\ Forall (fun f => parsable (snd f)) (gextras g).

Lemma tile_template_parsable g : wf_extras g -> parsable (tile_template g).
Proof.
  intros [Hn Hf]. unfold tile_template. rewrite parsable_fields. split.
  - rewrite !map_app. unfold own_names in Hn. rewrite <- app_assoc in Hn.
    destruct (gcolours g); exact Hn.
  - apply Forall_app. split; [repeat constructor; discriminate|]. apply Forall_app. split; [|exact Hf].
    destruct (gcolours g); repeat constructor.
Qed.

Lemma evl_pos a v : 0 < v -> evl a v = a v.
Proof. intros H. unfold evl. destruct (Z.ltb_spec 0 v); [reflexivity|lia]. Qed.

Lemma parse_cell_spec g mapping p : wf_grid g -> wf_extras g -> inside (garea g) p ->
  (forall v, tile_base g p < v <= tile_base g p + tile_size g -> mapping v <> None) ->
  parse_cell g mapping (fst (instantiate (tile_template g) (tile_base g p)))
  = read_tile (parse_tile (of_mapping mapping) (tile_at g p)).
Proof.
  intros W X Hp HM. pose proof (tile_template_parsable g X) as HP.
  destruct (parse_total _ HP (tile_base g p) mapping) as [r Hr].
  { intros v Hv. apply HM. apply fresh_In in Hv. unfold tile_size. lia. }
  unfold parse_cell. rewrite Hr. cbn [obind].
  unfold tile_template in HP. rewrite parsable_fields in HP. destruct HP as [HN _].
  rewrite instantiate_tile in Hr. unfold tile_template in Hr. rewrite parse_comp in Hr.
  match type of Hr with context [parse_fields ?is_ _ ?fs] => destruct (parse_fields is_ mapping fs) as [ps|] eqn:Eps; [|discriminate] end.
  cbn [obind] in Hr. injection Hr as <-.
  pose proof (parse_fields_assoc _ _ _ _ HN Eps) as R.
  pose proof (tile_base_nonneg g p W Hp) as Hb. pose proof (tile_size_pos g) as Hs. destruct W as (_ & Ht & _).
  set (b := tile_base g p) in *.
  assert (V : forall v, 0 < v - b <= 20 -> mapping v = Some (evl (of_mapping mapping) v)).
  { intros v Hv. rewrite evl_pos by lia. unfold of_mapping. specialize (HM v). destruct (mapping v); [reflexivity|]. exfalso. apply HM; [lia|reflexivity]. }
  assert (FB : forall name l, In (name, TBool) ([("is_belt", TBool); ("is_empty", TBool); ("is_splitter", TBool); ("is_underground_in", TBool);
      ("is_underground_out", TBool); ("is_splitter_head", TBool); ("is_input", TBool); ("is_output", TBool);
      ("input_direction", TSized OneHot 4); ("output_direction", TSized OneHot 4);
      ("underground", TArray TBool [4%nat])]) ->
      assoc name (member_fields g (tile_vars (colour_bits g) b)) = Some (ILit l) -> 0 < l - b <= 20 ->
      assoc name ps = Some (PBool (evl (of_mapping mapping) l))).
  { intros name l Hin Ha Hl. rewrite (R name TBool (ILit l)); [cbn [parse]; rewrite (V l Hl); reflexivity| |].
    - apply in_or_app. left. exact Hin.
    - rewrite assoc_app, Ha. reflexivity. }
  assert (FD : forall name f, In (name, TSized OneHot 4) ([("is_belt", TBool); ("is_empty", TBool); ("is_splitter", TBool); ("is_underground_in", TBool);
      ("is_underground_out", TBool); ("is_splitter_head", TBool); ("is_input", TBool); ("is_output", TBool);
      ("input_direction", TSized OneHot 4); ("output_direction", TSized OneHot 4);
      ("underground", TArray TBool [4%nat])]) ->
      assoc name (member_fields g (tile_vars (colour_bits g) b)) = Some (IList (map ILit (map f directions))) ->
      (forall d : dir, 0 < f d - b <= 20) ->
      assoc name ps = Some (match first_hot 0 (map (evl (of_mapping mapping)) (map f directions)) with Some j => PNum j | None => PNone end)).
  { intros name f Hin Ha Hl. rewrite (R name (TSized OneHot 4) (IList (map ILit (map f directions)))).
    - cbn [parse]. unfold parse_sized, lits_of. rewrite omap_lits. cbn [obind].
      rewrite (omap_map_some mapping f (fun d => evl (of_mapping mapping) (f d))) by (intros d _; apply V; apply Hl).
      cbn [obind]. rewrite map_map. reflexivity.
    - apply in_or_app. left. exact Hin.
    - rewrite assoc_app, Ha. reflexivity. }
  unfold cell_of. 
  rewrite (FB "is_belt" (b + 1)), (FB "is_empty" (b + 2)), (FB "is_splitter" (b + 3)), (FB "is_underground_in" (b + 4)),
    (FB "is_underground_out" (b + 5)), (FB "is_splitter_head" (b + 6)); try (cbn; tauto); try reflexivity; try lia.
  rewrite (FD "input_direction" (fun d => b + 9 + dir_value d)), (FD "output_direction" (fun d => b + 13 + dir_value d));
    try (cbn; tauto); try reflexivity; try (intros d; destruct d; cbn [dir_value]; lia).
  cbn [obind].
  assert (O : forall o : option Z, match o with Some j => Some (PNum j) | None => Some PNone end = Some (match o with Some j => PNum j | None => PNone end)) by (intros [|]; reflexivity).
  assert (O' : forall o : option Z, match (match o with Some j => PNum j | None => PNone end) with PNum n => Some (Some n) | PNone => Some None | _ => None end = Some o) by (intros [|]; reflexivity).
  cbn [obind]. rewrite !O'. cbn [obind]. reflexivity.
Qed.

Lemma omap_nth {A B} (f : A -> option B) l ys : omap f l = Some ys -> length ys = length l /\
  forall i, (i < length l)%nat -> exists x y, nth_error l i = Some x /\ nth_error ys i = Some y /\ f x = Some y.
Proof.
  revert ys. induction l as [|x l IH]; intros ys E; cbn in E.
  - injection E as <-. split; [reflexivity|]. cbn. lia.
  - destruct (f x) as [y|] eqn:Ex; [|discriminate]. cbn in E. destruct (omap f l) as [ys'|] eqn:Es; [|discriminate].
    cbn in E. injection E as <-. destruct (IH ys' eq_refl) as [L N]. split; [cbn; f_equal; exact L|].
    intros [|i] Hi; [exists x, y; auto|]. cbn in Hi. apply (N i). lia.
Qed.
