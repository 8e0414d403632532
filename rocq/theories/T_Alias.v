(** C118: aliases of templates. *)
From Coq Require Import String Ascii ZArith List Bool Lia Permutation.
From Verif Require Import Spec_Cnf Spec_Tile M_Json M_Util M_Template M_Network M_Alias Spec_Alias M_Grid P_Template P_Allocate P_Alias.
Import ListNotations.
Local Open Scope string_scope.

(** The field of an alias is the value of its function at the tile's own fields
    with the names of the parameters. *)
Theorem C118_alias fs top tile top' n params locals value : well_named (Comp fs) -> create (Comp fs) top = Some (IRec tile, top') ->
  In (n, inr (Named params locals value)) fs ->
  exists args v, Forall2 (fun p a => assoc p tile = Some a) params args /\ value args = Some v /\ assoc n tile = Some v.
Proof.
  intros W E Hin. destruct (create_parts _ _ _ _ W E) as (m & m' & tile' & Eg & Ea & Et & Nt & Nd & Pm & At).
  assert (tile' = tile) by congruence. subst tile'. destruct (in_split _ _ Hin) as (a & b & Ef).
  destruct (add_aliases_at _ _ _ _ _ _ _ Ea Ef) as (before & v & after & Em & _ & C).
  unfold call_ignoring_unused in C. destruct (forallb _ _); [|discriminate].
  destruct (omap _ params) as [args|] eqn:Eo; [|discriminate]. cbn [obind] in C. exists args, v.
  assert (Sub : forall k w, assoc k (m ++ before) = Some w -> assoc k tile = Some w).
  { intros k w Hk. rewrite At.
    - rewrite Em, app_assoc, assoc_app, Hk. reflexivity.
    - apply (Permutation_in _ Pm). rewrite Em, app_assoc, map_app. apply in_or_app. left.
      destruct (in_dec string_dec k (map fst (m ++ before)%list)) as [Y|Y]; [exact Y|]. apply assoc_none in Y. congruence. }
  split; [|split; [exact C|]].
  - clear - Eo Sub. revert args Eo. generalize (params ++ locals)%list. intros vars. induction params as [|p r IH]; intros args Eo; cbn [omap] in Eo.
    + injection Eo as <-. constructor.
    + destruct (assoc p _) as [x|] eqn:Ep in Eo; [|discriminate]. cbn [obind] in Eo.
      destruct (omap _ r) as [xs|] eqn:Er in Eo; [|discriminate]. cbn [obind] in Eo. injection Eo as <-. constructor; [|apply IH; exact Er].
      apply Sub. apply (assoc_filter (fun s => mem s vars)) in Ep. exact Ep.
  - rewrite At by (apply in_map_iff; exists (n, inr (Named params locals value)); auto).
    rewrite Em in Nd |- *. rewrite assoc_app. rewrite !map_app in Nd. cbn [map fst] in Nd.
    assert (Nn : assoc n (m ++ before) = None).
    { apply assoc_none. rewrite map_app. rewrite app_assoc in Nd. apply NoDup_remove_2 in Nd. intros K. apply Nd. apply in_or_app. left. exact K. }
    rewrite assoc_app in Nn. destruct (assoc n m); [discriminate|]. rewrite assoc_app. destruct (assoc n before); [discriminate|].
    cbn [assoc]. rewrite String.eqb_refl. reflexivity.
Qed.

(** A function that takes everything gets the members and the aliases before it,
    with the values of the tile. *)
Theorem C118_everything a n value b top tile top' : well_named (Comp (a ++ (n, inr (Everything value)) :: b)) ->
  create (Comp (a ++ (n, inr (Everything value)) :: b)) top = Some (IRec tile, top') ->
  exists args v, value args = Some v /\ assoc n tile = Some v /\ NoDup (map fst args) /\
    (forall k w, In (k, w) args -> assoc k tile = Some w) /\
    (forall k, In k (map fst args) <-> (exists c, In (k, inl c) (a ++ b)) \/ (exists f, In (k, inr f) a)).
Proof.
  intros W E. destruct (create_parts _ _ _ _ W E) as (m & m' & tile' & Eg & Ea & Et & Nt & Nd & Pm & At).
  assert (tile' = tile) by congruence. subst tile'.
  destruct (add_aliases_at _ _ _ _ _ _ _ Ea eq_refl) as (before & v & after & Em & Nb & C).
  exists (m ++ before)%list, v. split; [exact C|].
  assert (Nd' := Nd). rewrite Em in Nd'. rewrite app_assoc, map_app in Nd'. cbn [map fst] in Nd'.
  assert (Nn : assoc n (m ++ before) = None) by (apply assoc_none; apply NoDup_remove_2 in Nd'; intros K; apply Nd'; apply in_or_app; left; exact K).
  assert (Nmb : NoDup (map fst (m ++ before)%list)).
  { apply NoDup_remove_1 in Nd'. clear - Nd'. induction (map fst (m ++ before)%list) as [|x r IH]; [constructor|]. cbn [app] in Nd'. inversion Nd' as [|? ? Hx Hr]; subst. constructor; [intros K; apply Hx; apply in_or_app; left; exact K|exact (IH Hr)]. }
  split; [|split; [exact Nmb|split]].
  - rewrite At by (rewrite map_app; apply in_or_app; right; left; reflexivity). rewrite Em, app_assoc, assoc_app, Nn. cbn [assoc]. rewrite String.eqb_refl. reflexivity.
  - intros k w Hk. pose proof (assoc_in _ _ _ Nmb Hk) as Hk'. rewrite At.
    + rewrite Em, app_assoc, assoc_app, Hk'. reflexivity.
    + apply (Permutation_in _ Pm). rewrite Em, app_assoc, map_app. apply in_or_app. left. apply in_map_iff. exists (k, w). auto.
  - intros k. rewrite map_app, in_app_iff, (cgo_names _ _ _ _ Eg), Nb. unfold atomics, aliases. rewrite !in_flat_map.
    split.
    + intros [([k' [c|f]] & Hk & Hf)|([k' [c|f]] & Hk & Hf)]; cbn [snd fst In] in Hf; try tauto.
      * destruct Hf as [<-|[]]. left. exists c. rewrite in_app_iff in Hk |- *. destruct Hk as [Hk|[Hk|Hk]]; [auto|discriminate|auto].
      * destruct Hf as [<-|[]]. right. exists f. exact Hk.
    + intros [[c Hk]|[f Hk]].
      * left. exists (k, inl c). split; [|left; reflexivity]. rewrite in_app_iff in *. cbn [In]. tauto.
      * right. exists (k, inr f). split; [exact Hk|left; reflexivity].
Qed.

(** Aliases take no variables: a tile has the variables that it has without
    them, and the same number of them. *)
Theorem C118_variables c top i top' : well_named c -> create c top = Some (i, top') ->
  (exists j, stripped c i j /\ instantiate (without_aliases c) top = (j, top')) /\ (top' = top + Z.of_nat (cvariable_count c))%Z.
Proof.
  intros W E. destruct (create_stripped c W top i top' E) as (j & S' & I'). split; [exists j; auto|].
  rewrite cvariable_count_without. pose proof (instantiate_fresh (without_aliases c) top) as [K _]. rewrite I' in K. exact K.
Qed.

(** What is read from a solution has the members and not the aliases. *)
Theorem C118_parse c i j mapping : well_named c -> stripped c i j -> cparse c i mapping = parse (without_aliases c) j mapping.
Proof. apply cparse_stripped. Qed.

(** The fields of a tile are the entries of the template, in its order. *)
Theorem C118_fields fs top i top' : well_named (Comp fs) -> create (Comp fs) top = Some (i, top') -> exists tile, i = IRec tile /\ map fst tile = map fst fs.
Proof. intros W E. destruct (create_parts _ _ _ _ W E) as (m & m' & tile & _ & _ & Et & Nt & _). exists tile. auto. Qed.

(** When a tile is made: the parameters of each function are members or aliases
    before it, none of its other variables is, and it has a value. *)
Definition usable (fs : list (string * (ctemplate + func))) : Prop :=
  forall a n f b, fs = (a ++ (n, inr f) :: b)%list -> exists params locals value, f = Named params locals value /\
    (forall p, In p params -> (exists c, In (p, inl c) fs) \/ exists g, In (p, inr g) a) /\
    (forall p, In p locals -> In p params \/ ~ In p (map fst fs)) /\
    forall args, List.length args = List.length params -> exists v, value args = Some v.
Theorem C118_made fs top : well_named (Comp fs) -> usable fs -> (forall n c, In (n, inl c) fs -> forall t, exists r, create c t = Some r) -> exists r, create (Comp fs) top = Some r.
Proof.
  intros W U Hc. inversion W as [|? Nf Fn _]; subst. rewrite create_comp.
  assert (G : exists m t, cgo fs top = Some (m, t)).
  { clear - Hc. revert top Hc. induction fs as [|[n [c|f]] r IH]; intros top Hc; cbn [cgo]; fold cgo; [eauto| |].
    - destruct (Hc n c (or_introl eq_refl) top) as [[i t1] ->]. cbn [obind]. destruct (IH t1) as (m & t & ->); [intros n' c' H'; exact (Hc n' c' (or_intror H'))|]. cbn [obind]. eauto.
    - apply IH. intros n' c' H'. exact (Hc n' c' (or_intror H')). }
  destruct G as (m & t & Eg). rewrite Eg. cbn [obind]. pose proof (cgo_names _ _ _ _ Eg) as Nm.
  assert (A : forall b a ex, fs = (a ++ b)%list -> map fst ex = aliases a -> exists m', add_aliases b (m ++ ex) = Some m').
  { induction b as [|[n [c|f]] b IH]; intros a ex Ef Nx; cbn [add_aliases]; [eauto| |].
    - apply (IH (a ++ [(n, inl c)])%list ex); [rewrite <- app_assoc; exact Ef|]. unfold aliases. rewrite flat_map_app. cbn. rewrite app_nil_r. exact Nx.
    - destruct (U a n f b Ef) as (params & locals & value & -> & Hp & Hl & Hv).
      assert (K : exists v, call_ignoring_unused (Named params locals value) (m ++ ex) = Some v).
      { unfold call_ignoring_unused. set (given := filter _ _).
        assert (Ex : forall q, In q (map fst (m ++ ex)%list) -> In q (map fst fs)).
        { intros q Hq. rewrite map_app, Nm, Nx in Hq. apply (Permutation_in _ (names_split fs)). rewrite in_app_iff in *. destruct Hq as [Hq|Hq]; [auto|right].
          rewrite Ef. unfold aliases. rewrite flat_map_app. apply in_or_app. left. exact Hq. }
        replace (forallb _ given) with true.
        2:{ symmetry. apply forallb_forall. intros [q w] Hq. unfold given in Hq. apply filter_In in Hq. destruct Hq as [Hq Hm]. cbn [fst] in *.
            apply mem_in in Hm. rewrite in_app_iff in Hm. apply mem_in. destruct Hm as [Hm|Hm]; [exact Hm|]. destruct (Hl q Hm) as [Y|Y]; [exact Y|].
            exfalso. apply Y. apply Ex. apply in_map_iff. exists (q, w). auto. }
        assert (O : exists vs, omap (fun p => assoc p given) params = Some vs /\ List.length vs = List.length params).
        { assert (Hg : forall p, In p params -> exists v, assoc p given = Some v).
          { intros p Hin. unfold given. rewrite (assoc_filter_in (fun s => mem s (params ++ locals)%list)) by (apply mem_in; apply in_or_app; left; exact Hin).
            apply assoc_some. rewrite map_app, in_app_iff, Nm, Nx. destruct (Hp p Hin) as [[c Y]|[g Y]].
            - left. unfold atomics. apply in_flat_map. exists (p, inl c). split; [exact Y|left; reflexivity].
            - right. unfold aliases. apply in_flat_map. exists (p, inr g). split; [exact Y|left; reflexivity]. }
          clearbody given. clear - Hg. induction params as [|p r IH]; [exists []; split; reflexivity|]. cbn [omap]. destruct (Hg p (or_introl eq_refl)) as [v ->]. cbn [obind].
          destruct IH as (vs & -> & L); [intros q Hq; apply Hg; right; exact Hq|]. cbn [obind]. exists (v :: vs). split; [reflexivity|cbn; congruence]. }
        destruct O as (vs & -> & L). cbn [obind]. exact (Hv vs L). }
      destruct K as [v ->]. cbn [obind]. rewrite <- app_assoc.
      apply (IH (a ++ [(n, inr (Named params locals value))])%list (ex ++ [(n, v)])%list); [rewrite <- app_assoc; exact Ef|].
      unfold aliases. rewrite flat_map_app, map_app. cbn. f_equal. exact Nx. }
  destruct (A fs [] [] eq_refl eq_refl) as [m' Ea]. rewrite app_nil_r in Ea. rewrite Ea. cbn [obind].
  destruct (add_aliases_names _ _ _ Ea) as (ex & -> & Nx).
  destruct (named_tuple_total (map fst fs) (m ++ ex)) as [tile ->]; [exact Fn|rewrite map_app, Nm, Nx; apply names_split|]. cbn [obind]. eauto.
Qed.

(** It fails when a function has a local variable, not a parameter, with the
    name of a member. *)
Theorem C118_local fs top n params locals value p c : In (n, inr (Named params locals value)) fs -> In p locals -> ~ In p params -> In (p, inl c) fs ->
  create (Comp fs) top = None.
Proof.
  intros Hin Hp Np Hc. rewrite create_comp. destruct (cgo fs top) as [[m t]|] eqn:Eg; [|reflexivity]. cbn [obind].
  destruct (add_aliases fs m) as [m'|] eqn:Ea; [|reflexivity]. exfalso. destruct (in_split _ _ Hin) as (a & b & Ef).
  destruct (add_aliases_at _ _ _ _ _ _ _ Ea Ef) as (before & v & after & _ & _ & C). unfold call_ignoring_unused in C.
  destruct (forallb _ _) eqn:Fb; [|discriminate]. rewrite forallb_forall in Fb.
  assert (Hm : In p (map fst m)). { rewrite (cgo_names _ _ _ _ Eg). unfold atomics. apply in_flat_map. exists (p, inl c). split; [exact Hc|left; reflexivity]. }
  apply in_map_iff in Hm. destruct Hm as ([p' w] & <- & Hw). cbn [fst] in *. apply Np. apply mem_in. apply (Fb (p', w)). apply filter_In. split.
  - apply in_or_app. left. exact Hw.
  - apply mem_in. cbn [fst]. apply in_or_app. right. exact Hp.
Qed.
(** It fails when an entry has a name that no field can have. *)
Theorem C118_name fs top n x : In (n, x) fs -> field_name n = false -> (forall k, n <> "_" ++ str_int k) -> create (Comp fs) top = None.
Proof.
  intros Hin F Nk. rewrite create_comp. destruct (cgo fs top) as [[m t]|] eqn:Eg; [|reflexivity]. cbn [obind].
  destruct (add_aliases fs m) as [m'|] eqn:Ea; [|reflexivity]. cbn [obind].
  destruct (named_tuple (map fst fs) m') as [tile|] eqn:Et; [|reflexivity]. exfalso. unfold named_tuple in Et.
  destruct (forallb _ m') eqn:Fb; [|discriminate]. rewrite forallb_forall in Fb.
  destruct (add_aliases_names _ _ _ Ea) as (ex & -> & Nx).
  assert (Hn : In n (map fst (m ++ ex)%list)).
  { rewrite map_app, (cgo_names _ _ _ _ Eg), Nx. apply (Permutation_in _ (Permutation_sym (names_split fs))). apply in_map_iff. exists (n, x). auto. }
  apply in_map_iff in Hn. destruct Hn as ([n' w] & <- & Hw). specialize (Fb _ Hw). cbn [fst] in *. apply mem_in in Fb.
  destruct (renamed_in _ _ _ Fb) as [Y|[k Y]]; [congruence|exact (Nk k Y)].
Qed.

(** ** The tiles of the belt solver *)
(** Extras with names of their own. *)
Definition good_extras (g : grid) : Prop :=
  NoDup (map fst (solver_fields g)) /\ forall e, In e (gextras g) -> field_name (fst e) = true.

Lemma solver_leaf g n c : In (n, inl c) (solver_fields g) -> exists t, c = Leaf t.
Proof.
  unfold solver_fields. rewrite !in_app_iff. intros [H|[H|H]].
  - cbn [In] in H. repeat (destruct H as [H|H]; [solve [discriminate H | injection H as <- <-; eauto]|]). destruct H.
  - destruct (gcolours g); cbn [In] in H; [|destruct H]. repeat (destruct H as [H|H]; [injection H as <- <-; eauto|]). destruct H.
  - apply in_map_iff in H. destruct H as (e & E & _). exists (snd e). congruence.
Qed.
Lemma solver_well_named g : good_extras g -> well_named (Comp (solver_fields g)).
Proof.
  intros [Nd Fe]. constructor; [exact Nd| |].
  - intros n H. unfold solver_fields in H. rewrite !map_app, !in_app_iff in H. destruct H as [H|[H|H]].
    + cbn [map fst In] in H. repeat (destruct H as [<-|H]; [reflexivity|]). destruct H.
    + destruct (gcolours g); cbn [map fst In] in H; [|destruct H]. repeat (destruct H as [<-|H]; [reflexivity|]). destruct H.
    + rewrite map_map in H. apply in_map_iff in H. destruct H as (e & <- & He). exact (Fe e He).
  - intros n c H. destruct (solver_leaf g n c H) as [t ->]. constructor.
Qed.
Lemma solver_without g : without_aliases (Comp (solver_fields g)) = tile_template g.
Proof.
  unfold solver_fields, tile_template. cbn [without_aliases app]. repeat f_equal.
  assert (K : forall es, (fix keep (fs : list (string * (ctemplate + func))) : list (string * template) := match fs with [] => [] | (n, inl c) :: r => (n, without_aliases c) :: keep r | (_, inr _) :: r => keep r end)
    (map (fun e => (fst e, inl (Leaf (snd e)))) es) = es).
  { induction es as [|[n t] r IH]; [reflexivity|]. cbn [map fst snd without_aliases]. f_equal. exact IH. }
  destruct (gcolours g); cbn [app without_aliases]; [do 3 f_equal|]; apply K.
Qed.
Lemma keeps_leaves tile : forall fs kept, (forall n c, In (n, inl c) fs -> exists t, c = Leaf t) -> keeps fs tile kept -> forall n i, In (n, i) kept -> assoc n tile = Some i.
Proof.
  induction fs as [|[n [c|f]] r IH]; intros kept L K k i H; inversion K as [|? ? ? ? i0 j0 kr Ha Hst Hr|? ? ? ? ? Hr]; subst; [destruct H| |].
  - destruct (L n c (or_introl eq_refl)) as [t ->]. inversion Hst; subst. destruct H as [E|H]; [injection E as <- <-; exact Ha|].
    exact (IH kr (fun n' c' H' => L n' c' (or_intror H')) Hr k i H).
  - exact (IH kept (fun n' c' H' => L n' c' (or_intror H')) Hr k i H).
Qed.
Lemma cgo_leaves : forall fs top, (forall n c, In (n, inl c) fs -> exists t, c = Leaf t) ->
  cgo fs top = Some (comp_go ((fix keep (fs : list (string * (ctemplate + func))) : list (string * template) := match fs with [] => [] | (n, inl c) :: r => (n, without_aliases c) :: keep r | (_, inr _) :: r => keep r end) fs) top).
Proof.
  induction fs as [|[n [c|f]] r IH]; intros top L; cbn [cgo]; fold cgo; [reflexivity| |].
  - destruct (L n c (or_introl eq_refl)) as [t ->]. cbn [create without_aliases obind comp_go]. fold comp_go. destruct (instantiate t top) as [i t1].
    rewrite IH by (intros n' c' H'; exact (L n' c' (or_intror H'))). cbn [obind]. destruct (comp_go _ t1). reflexivity.
  - apply IH. intros n' c' H'. exact (L n' c' (or_intror H')).
Qed.
Lemma filter_none {A} (p : A -> bool) l : (forall x, In x l -> p x = false) -> filter p l = [].
Proof. induction l as [|x r IH]; intros H; [reflexivity|]. cbn [filter]. rewrite (H x (or_introl eq_refl)). apply IH. intros y Hy. apply H. right. exact Hy. Qed.
Lemma solver_made g b : good_extras g -> exists r, create (Comp (solver_fields g)) b = Some r.
Proof.
  intros G. pose proof (solver_well_named g G) as W. inversion W as [|? Nd Fn _]; subst. rewrite create_comp.
  pose proof (cgo_leaves (solver_fields g) b (solver_leaf g)) as Eg.
  pose proof (instantiate_comp ((fix keep (fs : list (string * (ctemplate + func))) : list (string * template) := match fs with [] => [] | (n, inl c) :: r => (n, without_aliases c) :: keep r | (_, inr _) :: r => keep r end) (solver_fields g)) b) as Ei.
  change (TComposite _) with (without_aliases (Comp (solver_fields g))) in Ei. rewrite solver_without in Ei. pose proof (instantiate_tile g b) as It. rewrite Ei in It.
  destruct (comp_go _ b) as [m t]. cbn [fst] in It. assert (Em : m = (member_fields g (tile_vars (colour_bits g) b) ++ fst (comp_go (gextras g) (b + 20 + 3 * Z.of_nat (colour_bits g))%Z))%list) by congruence.
  clear It Ei. rewrite Eg. cbn [obind].
  assert (A : exists m', add_aliases (solver_fields g) m = Some m').
  { set (ex := fst (comp_go _ _)) in Em.
    assert (Nx : forall e, In e ex -> forall names, (forall k, In k names -> In k (own_names g)) -> mem (fst e) names = false).
    { intros e He names Hn. destruct (mem (fst e) names) eqn:Q; [|reflexivity]. exfalso. apply mem_in in Q. apply Hn in Q.
      pose proof (cgo_names _ _ _ _ Eg) as Nm. assert (Na : NoDup (map fst m)).
      { rewrite Nm. pose proof (Permutation_NoDup (Permutation_sym (names_split (solver_fields g))) Nd) as Np. clear - Np. induction (atomics (solver_fields g)) as [|x r IH]; [constructor|].
        cbn [app] in Np. inversion Np as [|? ? Hx Hr]; subst. constructor; [intros K; apply Hx; apply in_or_app; left; exact K|exact (IH Hr)]. }
      rewrite Em, map_app in Na. assert (Ho : map fst (member_fields g (tile_vars (colour_bits g) b)) = own_names g).
      { unfold member_fields, own_names, lit_fields, list_fields, colour_fields. destruct (gcolours g); reflexivity. }
      rewrite Ho in Na. assert (Hx : In (fst e) (map fst ex)) by (apply in_map; exact He). clear - Na Q Hx.
      induction (own_names g) as [|x r IH]; [destruct Q|]. cbn [app] in Na. inversion Na as [|? ? Hn Hr]; subst. destruct Q as [->|Q]; [apply Hn; apply in_or_app; right; exact Hx|exact (IH Q Hr)]. }
    assert (C1 : exists v, call_ignoring_unused (Named ["is_belt"; "is_empty"; "is_splitter"; "is_underground_in"; "is_underground_out"] [] (fun args => Some (IList args))) m = Some v).
    { unfold call_ignoring_unused. rewrite Em, filter_app. rewrite (filter_none _ ex).
      2:{ intros e He. apply (Nx e He). intros k Hk. cbn in Hk. unfold own_names. apply in_or_app. left. cbn. intuition. }
      rewrite app_nil_r. unfold member_fields, colour_fields. destruct (gcolours g); cbn; eauto. }
    destruct C1 as [v1 C1].
    assert (C2 : exists v, call_ignoring_unused (Named ["input_direction"; "output_direction"] [] joined) (m ++ [("type", v1)]) = Some v).
    { unfold call_ignoring_unused. rewrite Em, !filter_app. rewrite (filter_none _ ex).
      2:{ intros e He. apply (Nx e He). intros k Hk. cbn in Hk. unfold own_names. apply in_or_app. left. cbn. intuition. }
      rewrite app_nil_r. unfold member_fields, colour_fields. destruct (gcolours g); cbn; eauto. }
    destruct C2 as [v2 C2].
    assert (Rest : forall es m, add_aliases (map (fun e => (fst e, inl (Leaf (snd e)))) es) m = Some m) by (induction es as [|e r IH]; intros ?; [reflexivity|apply IH]).
    exists ((m ++ [("type", v1)]) ++ [("all_direction", v2)])%list. unfold solver_fields. cbn [app add_aliases]. rewrite C1. cbn [obind]. rewrite C2. cbn [obind].
    destruct (gcolours g); cbn [app add_aliases]; apply Rest. }
  destruct A as [m' Ea]. rewrite Ea. cbn [obind]. destruct (add_aliases_names _ _ _ Ea) as (ex & -> & Nx).
  destruct (named_tuple_total (map fst (solver_fields g)) (m ++ ex)) as [tile ->]; [exact Fn|rewrite map_app, (cgo_names _ _ _ _ Eg), Nx; apply names_split|]. cbn [obind]. eauto.
Qed.

(** Every tile of the belt solver can be made, with any extras that have names
    of their own.  It has the variables of the encoding, and its two aliases are
    the five kinds and the eight directions. *)
Theorem C118_tile g b : good_extras g -> exists tile fields,
  create (Comp (solver_fields g)) b = Some (IRec tile, (b + tile_size g)%Z) /\
  instantiate (tile_template g) b = (IRec fields, (b + tile_size g)%Z) /\
  (forall n i, In (n, i) fields -> assoc n tile = Some i) /\
  assoc "type" tile = Some (IList (map ILit (tile_type (tile_vars (colour_bits g) b)))) /\
  assoc "all_direction" tile = Some (IList (map ILit (all_direction (tile_vars (colour_bits g) b)))).
Proof.
  intros G. pose proof (solver_well_named g G) as W. destruct (solver_made g b G) as [[i top'] E].
  destruct (C118_variables _ _ _ _ W E) as [(j & Sj & Ij) Et].
  destruct (C118_fields _ _ _ _ W E) as (tile & -> & Nt). inversion Sj as [|? ? kept Hk]; subst j. subst fields tile0.
  rewrite solver_without in Ij. assert (Et' : top' = (b + tile_size g)%Z) by (rewrite Et, cvariable_count_without, solver_without; reflexivity).
  exists tile, kept. rewrite <- Et'. split; [exact E|]. split; [exact Ij|].
  assert (Ka : forall n i, In (n, i) kept -> assoc n tile = Some i) by (intros n i; apply (keeps_leaves tile (solver_fields g)); [apply solver_leaf|exact Hk]).
  split; [exact Ka|].
  pose proof (instantiate_tile g b) as It. rewrite Ij in It. cbn [fst] in It. assert (Ek : kept = (member_fields g (tile_vars (colour_bits g) b) ++ fst (comp_go (gextras g) (b + 20 + 3 * Z.of_nat (colour_bits g))%Z))%list) by congruence.
  assert (Kl : forall n l, In (n, l) (lit_fields (tile_vars (colour_bits g) b)) -> assoc n tile = Some (ILit l)).
  { intros n l H. apply Ka. rewrite Ek. apply in_or_app. left. unfold member_fields. apply in_or_app. left. apply in_map_iff. exists (n, l). auto. }
  assert (Kd : forall n l, In (n, l) (list_fields (tile_vars (colour_bits g) b)) -> assoc n tile = Some (IList (map ILit l))).
  { intros n l H. apply Ka. rewrite Ek. apply in_or_app. left. unfold member_fields. apply in_or_app. right. apply in_map_iff. exists (n, l). split; [reflexivity|]. apply in_or_app. left. exact H. }
  split.
  - destruct (C118_alias _ _ _ _ "type" ["is_belt"; "is_empty"; "is_splitter"; "is_underground_in"; "is_underground_out"] [] (fun args => Some (IList args)) W E) as (args & v & F & V & A).
    { unfold solver_fields. apply in_or_app. left. cbn [In]. do 11 right. left. reflexivity. }
    rewrite A. assert (v = IList args) by congruence. subst v. do 2 f_equal. clear V A.
    repeat match goal with H : Forall2 _ (_ :: _) _ |- _ => inversion H; subst; clear H | H : Forall2 _ [] _ |- _ => inversion H; subst; clear H end.
    repeat match goal with H : assoc ?n tile = Some ?y |- _ => first [erewrite (Kl n) in H by (cbn [lit_fields In]; eauto 10); injection H as <-] end. reflexivity.
  - destruct (C118_alias _ _ _ _ "all_direction" ["input_direction"; "output_direction"] [] joined W E) as (args & v & F & V & A).
    { unfold solver_fields. apply in_or_app. left. cbn [In]. do 12 right. left. reflexivity. }
    rewrite A. 
    repeat match goal with H : Forall2 _ (_ :: _) _ |- _ => inversion H; subst; clear H | H : Forall2 _ [] _ |- _ => inversion H; subst; clear H end.
    repeat match goal with H : assoc ?n tile = Some ?y |- _ => first [erewrite (Kd n) in H by (cbn [list_fields In]; eauto 10); injection H as <-] end.
    cbn [joined] in V. injection V as <-. reflexivity.
Qed.

(** ** Cases that meet the hypotheses *)
(** The tiles of the balancer solver, for every length of network. *)
Example C118_met g k : gextras g = [("node", TSized OneHot k)] -> good_extras g.
Proof.
  intros E. unfold good_extras, solver_fields. rewrite E. split.
  - destruct (gcolours g); cbn; repeat (constructor; [cbn; intuition discriminate|]); constructor.
  - intros e [<-|[]]. reflexivity.
Qed.
(** An alias of an alias, in a template inside a template. *)
Definition first_two (args : list instance) : option instance := match args with a :: b :: _ => Some (IList [a; b]) | _ => None end.
Definition sample : ctemplate :=
  Comp [("both", inr (Named ["x"; "z"] ["i"] first_two)); ("x", inl (Leaf TBool));
        ("z", inl (Comp [("u", inl (Leaf (TSized OneHot 2))); ("v", inr (Everything (fun args => option_map snd (hd_error args))))]));
        ("last", inr (Named ["both"] [] (fun args => hd_error args)))].
Example C118_sample : create sample 4 = Some (
  IRec [("both", IList [ILit 5; IRec [("u", IList [ILit 6; ILit 7]); ("v", IList [ILit 6; ILit 7])]]); ("x", ILit 5);
        ("z", IRec [("u", IList [ILit 6; ILit 7]); ("v", IList [ILit 6; ILit 7])]);
        ("last", IList [ILit 5; IRec [("u", IList [ILit 6; ILit 7]); ("v", IList [ILit 6; ILit 7])]])], 7%Z).
Proof. reflexivity. Qed.
Example C118_sample_named : well_named sample.
Proof.
  assert (V : forall fs : list (string * (ctemplate + func)), forallb (fun f => field_name (fst f)) fs = true -> forall n, In n (map fst fs) -> field_name n = true).
  { intros fs H n Hn. apply in_map_iff in Hn. destruct Hn as ([m x] & <- & Hx). rewrite forallb_forall in H. exact (H _ Hx). }
  unfold sample. constructor; [cbn; repeat (constructor; [cbn; intuition discriminate|]); constructor|apply V; reflexivity|].
  intros n c H. cbn in H. destruct H as [H|[H|[H|[H|[]]]]]; try discriminate H; assert (K : forall a b : ctemplate, (@inl ctemplate func a) = inl b -> a = b) by (intros; congruence);
    assert (E := f_equal snd H); cbn [snd] in E; apply K in E; subst c; constructor.
  - cbn; repeat (constructor; [cbn; intuition discriminate|]); constructor.
  - apply V. reflexivity.
  - intros m d Hd. cbn in Hd. destruct Hd as [Hd|[Hd|[]]]; [|discriminate Hd]. assert (E := f_equal snd Hd); cbn [snd] in E; apply K in E; subst d. constructor.
Qed.
Example C118_sample_usable : usable [("both", inr (Named ["x"; "z"] ["i"] first_two)); ("x", inl (Leaf TBool)); ("z", inl (Leaf TBool))].
Proof.
  intros [|h a] n f b E.
  - assert (K := f_equal (fun l => hd ("", inr f) l) E). cbn in K. assert (Kf : inr (Named ["x"; "z"] ["i"] first_two) = (inr f : ctemplate + func)) by congruence.
    exists ["x"; "z"], ["i"], first_two. split; [congruence|]. split; [|split].
    + intros p [<-|[<-|[]]]; left; exists (Leaf TBool); cbn; auto.
    + intros p [<-|[]]. right. cbn. intuition discriminate.
    + intros [|x [|y [|? ?]]] L; try discriminate L. cbn. eauto.
  - exfalso. destruct a as [|h2 [|h3 a]]; cbn in E; [| |destruct a]; discriminate E.
Qed.
(** A function with a loop variable "x", beside a member "x". *)
Example C118_sample_local top : create (Comp [("x", inl (Leaf TBool)); ("y", inl (Leaf TBool)); ("f", inr (Named ["y"] ["x"] (fun args => hd_error args)))]) top = None.
Proof. apply (C118_local _ top "f" ["y"] ["x"] (fun args => hd_error args) "x" (Leaf TBool)); cbn; intuition congruence. Qed.

Print Assumptions C118_alias.
Print Assumptions C118_everything.
Print Assumptions C118_variables.
Print Assumptions C118_parse.
Print Assumptions C118_fields.
Print Assumptions C118_made.
Print Assumptions C118_local.
Print Assumptions C118_name.
Print Assumptions C118_tile.
