(** Proofs about calculate_optimal.py: the database. *)
From Coq Require Import String Ascii ZArith List Bool Lia Permutation.
From Verif Require Import M_Json M_Dict P_Dict M_Solve P_Solve M_Network P_Network M_Optimal Spec_Optimal.
Import ListNotations.
Local Open Scope string_scope.
Open Scope Z_scope.

Lemma size_eqb_spec (s t : size) : reflect (s = t) (size_eqb s t).
Proof.
  destruct s as [[a b] c], t as [[d e] f]. unfold size_eqb.
  destruct (Z.eqb_spec a d), (Z.eqb_spec b e), (Z.eqb_spec c f); cbn; constructor; congruence.
Qed.
Lemma size_le_spec (s t : size) : reflect (within s t) (size_le s t).
Proof.
  destruct s as [[a b] c], t as [[d e] f]. unfold size_le, within.
  destruct (Z.leb_spec0 a d), (Z.leb_spec0 b e), (Z.leb_spec0 c f); cbn; constructor; lia.
Qed.
Lemma within_refl s : within s s.
Proof. destruct s as [[a b] c]. unfold within. lia. Qed.
Lemma within_trans s t r : within s t -> within t r -> within s r.
Proof. destruct s as [[a b] c], t as [[d e] f], r as [[x y] z]. unfold within. lia. Qed.

(** * lookup *)
Definition consistent (e : list (size * bool)) : Prop :=
  forall t f, In (t, true) e -> In (f, false) e -> ~ within t f.

Lemma lookup_true e s : lookup e s = Some true -> exists t, In (t, true) e /\ within t s.
Proof.
  induction e as [|[o b] e IH]; cbn [lookup]; [discriminate|]. destruct b.
  - destruct (size_le_spec o s) as [W|W]; [intros _; exists o; cbn; auto|intros E; destruct (IH E) as (t & I1 & W1); exists t; cbn; auto].
  - destruct (size_le_spec s o) as [W|W]; [discriminate|intros E; destruct (IH E) as (t & I1 & W1); exists t; cbn; auto].
Qed.
Lemma lookup_false e s : lookup e s = Some false -> exists f, In (f, false) e /\ within s f.
Proof.
  induction e as [|[o b] e IH]; cbn [lookup]; [discriminate|]. destruct b.
  - destruct (size_le_spec o s) as [W|W]; [discriminate|intros E; destruct (IH E) as (t & I1 & W1); exists t; cbn; auto].
  - destruct (size_le_spec s o) as [W|W]; [intros _; exists o; cbn; auto|intros E; destruct (IH E) as (t & I1 & W1); exists t; cbn; auto].
Qed.
Lemma lookup_none e s : lookup e s = None <->
  (forall t, In (t, true) e -> ~ within t s) /\ (forall f, In (f, false) e -> ~ within s f).
Proof.
  induction e as [|[o b] e IH]; cbn [lookup In]; [intuition|]. destruct b.
  - destruct (size_le_spec o s) as [W|W].
    + split; [discriminate|]. intros [H _]. destruct (H o (or_introl eq_refl) W).
    + rewrite IH. split; intros [H1 H2]; split; intros x Hx.
      * destruct Hx as [[= ->]|Hx]; auto.
      * destruct Hx as [[= ->]|Hx]; auto.
      * apply H1. auto.
      * apply H2. auto.
  - destruct (size_le_spec s o) as [W|W].
    + split; [discriminate|]. intros [_ H]. destruct (H o (or_introl eq_refl) W).
    + rewrite IH. split; intros [H1 H2]; split; intros x Hx.
      * destruct Hx as [[= ->]|Hx]; auto.
      * destruct Hx as [[= ->]|Hx]; auto.
      * apply H1. auto.
      * apply H2. auto.
Qed.
Lemma lookup_is_true e s : consistent e -> (lookup e s = Some true <-> exists t, In (t, true) e /\ within t s).
Proof.
  intros C. split; [apply lookup_true|]. intros (t & Ht & W). destruct (lookup e s) as [[|]|] eqn:E; [reflexivity| |].
  - apply lookup_false in E. destruct E as (f & Hf & W'). destruct (C t f Ht Hf (within_trans _ _ _ W W')).
  - apply lookup_none in E. destruct E as [E _]. destruct (E t Ht W).
Qed.
Lemma lookup_is_false e s : consistent e -> (lookup e s = Some false <-> exists f, In (f, false) e /\ within s f).
Proof.
  intros C. split; [apply lookup_false|]. intros (f & Hf & W). destruct (lookup e s) as [[|]|] eqn:E; [|reflexivity|].
  - apply lookup_true in E. destruct E as (t & Ht & W'). destruct (C t f Ht Hf (within_trans _ _ _ W' W)).
  - apply lookup_none in E. destruct E as [_ E]. destruct (E f Hf W).
Qed.
(** The answers depend only on which sizes are covered. *)
Lemma lookup_same e e' : consistent e -> consistent e' ->
  (forall s, (exists t, In (t, true) e /\ within t s) <-> (exists t, In (t, true) e' /\ within t s)) ->
  (forall s, (exists f, In (f, false) e /\ within s f) <-> (exists f, In (f, false) e' /\ within s f)) ->
  forall s, lookup e s = lookup e' s.
Proof.
  intros C C' T F s. destruct (lookup e s) as [[|]|] eqn:E; symmetry.
  - apply lookup_is_true; [assumption|]. apply T, lookup_true, E.
  - apply lookup_is_false; [assumption|]. apply F, lookup_false, E.
  - apply lookup_none. apply lookup_none in E. destruct E as [E1 E2]. split.
    + intros t Ht W. destruct (proj2 (T s) (ex_intro _ t (conj Ht W))) as (t' & H & W'). apply (E1 t' H W').
    + intros f Hf W. destruct (proj2 (F s) (ex_intro _ f (conj Hf W))) as (f' & H & W'). apply (E2 f' H W').
Qed.

(** * clean *)
Notation szspec := size_eqb_spec (only parsing).
Record cleaned (e e' : list (size * bool)) : Prop := {
  cl_nodup : NoDup (map fst e');
  cl_true : forall t, In (t, true) e' <-> In (t, true) e;
  cl_false : forall f, In (f, false) e' -> In (f, false) e;
  cl_cover : forall f, In (f, false) e -> exists f', In (f', false) e' /\ within f f' }.
Lemma nodup_one (e : list (size * bool)) s b b' : NoDup (map fst e) -> In (s, b) e -> In (s, b') e -> b = b'.
Proof.
  intros N H H'. pose proof (dget_nodup size_eqb size_eqb_spec s b e N H) as E. pose proof (dget_nodup size_eqb size_eqb_spec s b' e N H') as E'. congruence.
Qed.
Lemma clean_loop_ok e todo : forall cur, NoDup (map fst e) -> (forall s, In (s, false) todo -> In (s, false) e) ->
  cleaned e cur -> cleaned e (clean_loop todo cur).
Proof.
  induction todo as [|[s b] todo IH]; intros cur N Sub [C1 C2 C3 C4]; cbn [clean_loop]; [constructor; assumption|].
  destruct b; [apply IH; [assumption|intros x H; apply Sub; right; exact H|constructor; assumption]|].
  assert (Hs : In (s, false) e) by (apply Sub; left; reflexivity).
  assert (Nt : ~ In (s, true) e) by (intros H; pose proof (nodup_one e s true false N H Hs); discriminate).
  assert (Sub' : forall x, In (x, false) todo -> In (x, false) e) by (intros x H; apply Sub; right; exact H).
  set (d := ddel size_eqb s cur).
  assert (Dd : forall x y, In (x, y) d <-> x <> s /\ In (x, y) cur) by (intros; apply (ddel_in size_eqb size_eqb_spec); assumption).
  assert (Nd : NoDup (map fst d)) by (apply (ddel_nodup size_eqb size_eqb_spec); assumption).
  assert (Cases : (match lookup d s with Some false => d | _ => dset size_eqb s false d end) = d /\ lookup d s = Some false \/
                  (match lookup d s with Some false => d | _ => dset size_eqb s false d end) = dset size_eqb s false d)
    by (destruct (lookup d s) as [[|]|]; auto).
  destruct Cases as [[-> L]| ->]; apply IH; try assumption; constructor.
  - exact Nd.
  - intros t. rewrite Dd, C2. split; [tauto|]. intros H. split; [intros ->; contradiction|exact H].
  - intros f H. apply Dd in H. apply C3. tauto.
  - intros f H. apply lookup_false in L. destruct L as (f1 & H1 & W1).
    destruct (C4 f H) as (f2 & H2 & W2). destruct (size_eqb_spec f2 s) as [E|E].
    + exists f1. split; [exact H1|]. apply (within_trans _ _ _ W2). rewrite E. exact W1.
    + exists f2. split; [apply Dd; auto|exact W2].
  - apply (dset_nodup size_eqb size_eqb_spec). exact Nd.
  - intros t. rewrite (dset_in size_eqb size_eqb_spec _ _ _ _ _ Nd), Dd, C2. split.
    + intros [[_ [=]]|[_ [_ H]]]. exact H.
    + intros H. right. assert (t <> s) by (intros ->; contradiction). auto.
  - intros f H. apply (dset_in size_eqb size_eqb_spec _ _ _ _ _ Nd) in H. destruct H as [[-> _]|[_ H]]; [exact Hs|]. apply Dd in H. apply C3. tauto.
  - intros f H. destruct (C4 f H) as (f2 & H2 & W2). exists f2. split; [|exact W2].
    apply (dset_in size_eqb size_eqb_spec _ _ _ _ _ Nd). destruct (size_eqb_spec f2 s) as [E|E]; [left; auto|right; split; [exact E|]]. apply Dd. auto.
Qed.
Lemma clean_ok {A} (st : store A) : NoDup (map fst (st_exist st)) -> cleaned (st_exist st) (st_exist (clean st)).
Proof.
  intros N. apply clean_loop_ok; [assumption|auto|]. constructor; [assumption|tauto|auto|].
  intros f H. exists f. split; [exact H|apply within_refl].
Qed.
Lemma cleaned_consistent e e' : consistent e -> cleaned e e' -> consistent e'.
Proof. intros C [_ T F _] t f Ht Hf. apply C; [apply T; exact Ht|apply F; exact Hf]. Qed.
Lemma cleaned_lookup e e' : consistent e -> cleaned e e' -> forall s, lookup e' s = lookup e s.
Proof.
  intros C H. pose proof (cleaned_consistent e e' C H) as C'. destruct H as [_ T F Cov]. apply lookup_same; try assumption.
  - intros s. split; intros (t & Ht & W); exists t; (split; [apply T; exact Ht|exact W]).
  - intros s. split; intros (f & Hf & W); [exists f; split; [apply F; exact Hf|exact W]|].
    destruct (Cov f Hf) as (f' & Hf' & W'). exists f'. split; [exact Hf'|]. apply (within_trans _ _ _ W W').
Qed.

(** * add_solution *)
Definition yes {A} (o : option A) : bool := match o with Some _ => true | None => false end.
Lemma unknown_fresh e s : lookup e s = None -> ~ In s (map fst e).
Proof.
  intros L H. apply lookup_none in L. destruct L as [L1 L2]. apply in_map_iff in H. destruct H as ([x b] & E & H). cbn in E. subst x.
  destruct b; [apply (L1 s H (within_refl s))|apply (L2 s H (within_refl s))].
Qed.
Lemma add_exist {A} (st : store A) s sol : does_balancer_exist st s = None ->
  st_exist (add_solution st s sol) = (st_exist st ++ [(s, yes sol)])%list.
Proof. intros L. cbn. rewrite (dset_fresh size_eqb size_eqb_spec); [destruct sol; reflexivity|apply unknown_fresh, L]. Qed.
Lemma add_consistent e s b : consistent e -> lookup e s = None -> consistent (e ++ [(s, b)])%list.
Proof.
  intros C L t f Ht Hf. apply lookup_none in L. destruct L as [L1 L2].
  apply in_app_or in Ht. apply in_app_or in Hf. destruct Ht as [Ht|[[= <- E]|[]]], Hf as [Hf|[[= <- E']|[]]].
  - apply C; assumption.
  - apply L1. exact Ht.
  - apply L2. exact Hf.
  - congruence.
Qed.
Lemma history_ok {A} (st : store A) : history st -> NoDup (map fst (st_exist st)) /\ consistent (st_exist st).
Proof.
  induction 1 as [name net|st s sol H [N C] L|st H [N C]].
  - split; [constructor|intros t f []].
  - rewrite add_exist by exact L. split; [|apply add_consistent; assumption].
    rewrite map_app. apply unknown_fresh in L. cbn [map fst]. clear C. revert N L. generalize (map fst (st_exist st)). intros l N L.
    apply (Permutation_NoDup (Permutation_cons_append l s)). constructor; assumption.
  - pose proof (clean_ok st N) as K. split; [apply K|]. apply (cleaned_consistent _ _ C K).
Qed.
(** Knowledge only grows. *)
Lemma app_lookup e s b x v : consistent e -> lookup e s = None -> lookup e x = Some v -> lookup (e ++ [(s, b)])%list x = Some v.
Proof.
  intros C L X. pose proof (add_consistent e s b C L) as C'. destruct v.
  - apply lookup_is_true; [assumption|]. apply lookup_true in X. destruct X as (t & H & W). exists t. split; [apply in_or_app; auto|exact W].
  - apply lookup_is_false; [assumption|]. apply lookup_false in X. destruct X as (t & H & W). exists t. split; [apply in_or_app; auto|exact W].
Qed.
Lemma app_lookup_new e s b : consistent e -> lookup e s = None -> lookup (e ++ [(s, b)])%list s = Some b.
Proof.
  intros C L. pose proof (add_consistent e s b C L) as C'. destruct b.
  - apply lookup_is_true; [assumption|]. exists s. split; [apply in_or_app; right; left; reflexivity|apply within_refl].
  - apply lookup_is_false; [assumption|]. exists s. split; [apply in_or_app; right; left; reflexivity|apply within_refl].
Qed.

(** * JSON *)
Lemma dict_of_nodup {K V} (eqb : K -> K -> bool) (spec : forall a b, reflect (a = b) (eqb a b)) (l : list (K * V)) :
  NoDup (map fst l) -> dict_of eqb l = l.
Proof.
  unfold dict_of. intros N. change l with ([] ++ l)%list at 2. assert (N' : NoDup (map fst ([] ++ l)%list)) by exact N.
  clear N. revert N'. generalize (@nil (K * V)). induction l as [|[k v] l IH]; intros d N; cbn [fold_left fst snd]; [rewrite app_nil_r; reflexivity|].
  rewrite (dset_fresh eqb spec).
  - rewrite IH; rewrite <- app_assoc; [reflexivity|exact N].
  - rewrite map_app in N. cbn [map fst] in N. apply NoDup_remove_2 in N. intros H. apply N. apply in_or_app. auto.
Qed.
Definition no_comma (s : string) : Prop := all_chars (fun c => negb (Ascii.eqb c ",")) s = true.
Lemma digits_no_comma d : no_comma (DecimalString.NilEmpty.string_of_uint d).
Proof. unfold no_comma. induction d; cbn; auto. Qed.
Lemma decimal_no_comma n : no_comma (str_int n).
Proof.
  unfold str_int. destruct (to_int_digits n) as [H1 H2]. destruct (Z.to_int n) as [d|d]; cbn.
  - unfold DecimalString.NilZero.string_of_uint. destruct d; [contradiction| | | | | | | | | |]; apply (digits_no_comma (_ d)).
  - unfold DecimalString.NilZero.string_of_uint. destruct d; [contradiction| | | | | | | | | |]; unfold no_comma; cbn [all_chars]; apply (digits_no_comma (_ d)).
Qed.
Lemma split_comma_word t : no_comma t -> forall w s, split_comma w (t ++ s) = split_comma (w ++ t) s.
Proof.
  induction t as [|c t IH]; intros H w s; [rewrite string_app_nil; reflexivity|].
  unfold no_comma in H. cbn [all_chars] in H. apply andb_prop in H. destruct H as [H1 H2].
  cbn [append split_comma]. destruct (Ascii.eqb c ","); [discriminate|]. rewrite IH by exact H2. rewrite string_app_assoc. reflexivity.
Qed.
Lemma parse_key_text s : parse_key (key_text s) = Some s.
Proof.
  destruct s as [[u w] h]. unfold parse_key, key_text.
  rewrite split_comma_word by apply decimal_no_comma. cbn [append].
  change (String "," (str_int w ++ String "," (str_int h))) with (("," : string) ++ (str_int w ++ ("," ++ str_int h))).
  cbn [append split_comma Ascii.eqb Bool.eqb].
  change (String "," (str_int h)) with ("," ++ str_int h).
  rewrite split_comma_word by apply decimal_no_comma. cbn [append split_comma Ascii.eqb Bool.eqb].
  rewrite <- (string_app_nil (str_int h)), split_comma_word by apply decimal_no_comma. cbn [append split_comma].
  cbn [omap]. change str_int with decimal. rewrite !parse_decimal. reflexivity.
Qed.
Lemma key_text_inj s t : key_text s = key_text t -> s = t.
Proof. intros E. pose proof (parse_key_text s) as H. rewrite E, parse_key_text in H. injection H as ->. reflexivity. Qed.
Lemma parse_entries_text {V} (l : list (size * V)) : NoDup (map fst l) ->
  parse_entries (dict_of String.eqb (map (fun e => (key_text (fst e), snd e)) l)) = Some l.
Proof.
  intros N. rewrite dict_of_nodup.
  - unfold parse_entries.
    assert (E : omap (fun kv : string * V => let* s := parse_key (fst kv) in Some (s, snd kv)) (map (fun e => (key_text (fst e), snd e)) l) = Some l).
    { clear N. induction l as [|[s v] l IH]; [reflexivity|]. cbn [map omap fst snd]. rewrite parse_key_text. cbn [obind]. rewrite IH. reflexivity. }
    rewrite E. cbn [obind]. rewrite dict_of_nodup; [reflexivity|apply size_eqb_spec|exact N].
  - intros a b. destruct (String.eqb_spec a b); constructor; assumption.
  - rewrite map_map. cbn [fst]. rewrite <- (map_map fst key_text). apply FinFun.Injective_map_NoDup; [|exact N].
    intros s t. apply key_text_inj.
Qed.
Lemma json_round {A} (st st' : store A) : NoDup (map fst (st_exist st)) -> NoDup (map fst (st_solutions st)) ->
  from_json st' (to_json st) = Some {| st_name := st_name st'; st_network := st_network st'; st_exist := st_exist st; st_solutions := st_solutions st |}.
Proof.
  intros N1 N2. unfold from_json, to_json. cbn [js_exist js_solutions]. rewrite !parse_entries_text by assumption. reflexivity.
Qed.
Lemma save_get {A} (stores : list (store A)) : NoDup (map st_name stores) ->
  forall name, dget String.eqb name (save_data stores) = option_map to_json (find (fun st => String.eqb name (st_name st)) stores).
Proof.
  intros N. unfold save_data.
  assert (G : forall l d name, NoDup (map st_name l) ->
    dget String.eqb name (fold_left (fun d st => dset String.eqb (st_name st) (to_json st) d) l d) =
    match find (fun st : store A => String.eqb name (st_name st)) l with Some st => Some (to_json st) | None => dget String.eqb name d end).
  { induction l as [|st l IH]; intros d name N'; cbn [fold_left find]; [reflexivity|]. inversion N' as [|? ? N1 N2]; subst.
    rewrite IH by assumption. rewrite (dget_dset String.eqb String.eqb_spec).
    destruct (String.eqb_spec name (st_name st)) as [->|E].
    - destruct (find (fun st0 => String.eqb (st_name st) (st_name st0)) l) as [x|] eqn:F; [|reflexivity].
      apply find_some in F. destruct F as [F1 F2]. apply String.eqb_eq in F2. exfalso. apply N1. rewrite F2. apply in_map. exact F1.
    - reflexivity. }
  intros name. rewrite (G stores [] name N). cbn. destruct (find _ stores); reflexivity.
Qed.
