(** Templates with aliases: lemmas. *)
From Coq Require Import String Ascii ZArith List Bool Lia Permutation.
From Verif Require Import M_Json M_Template M_Network M_Alias Spec_Alias P_Template.
Import ListNotations.
Local Open Scope string_scope.

Section Ind.
  Variable P : ctemplate -> Prop.
  Hypothesis HL : forall t, P (Leaf t).
  Hypothesis HC : forall fs, (forall n c, In (n, inl c) fs -> P c) -> P (Comp fs).
  Fixpoint ctemplate_ind' (c : ctemplate) : P c.
  Proof.
    destruct c as [t|fs]; [apply HL|]. apply HC. revert fs.
    fix go 1. intros [|[n' x] r] n c H; [destruct H|].
    destruct x as [c'|f].
    - destruct H as [E|H]; [|exact (go r n c H)].
      assert (K : c' = c) by congruence. rewrite <- K. apply ctemplate_ind'.
    - destruct H as [E|H]; [discriminate|exact (go r n c H)].
  Defined.
End Ind.

Definition cgo := fix go (fs : list (string * (ctemplate + func))) (top : Z) : option (list (string * instance) * Z) :=
  match fs with
  | [] => Some ([], top)
  | (name, inl c) :: r => let* (i, top1) := create c top in let* (is_, top2) := go r top1 in Some ((name, i) :: is_, top2)
  | (_, inr _) :: r => go r top
  end.
Lemma create_comp fs top : create (Comp fs) top =
  let* (members, top') := cgo fs top in let* members := add_aliases fs members in
  let* tile := named_tuple (map fst fs) members in Some (tile, top').
Proof. reflexivity. Qed.

Definition atomics (fs : list (string * (ctemplate + func))) : list string := flat_map (fun f => match snd f with inl _ => [fst f] | inr _ => [] end) fs.
Definition aliases (fs : list (string * (ctemplate + func))) : list string := flat_map (fun f => match snd f with inl _ => [] | inr _ => [fst f] end) fs.
Lemma names_split fs : Permutation (atomics fs ++ aliases fs) (map fst fs).
Proof.
  induction fs as [|[n [c|f]] r IH]; cbn [atomics aliases flat_map map snd fst app]; [constructor| |].
  - constructor. exact IH.
  - fold (atomics r) (aliases r). symmetry. apply Permutation_cons_app. symmetry. exact IH.
Qed.
Lemma cgo_names fs : forall top l top', cgo fs top = Some (l, top') -> map fst l = atomics fs.
Proof.
  induction fs as [|[n [c|f]] r IH]; intros top l top' E; cbn [cgo] in E; fold cgo in E.
  - injection E as <- <-. reflexivity.
  - destruct (create c top) as [[i t1]|]; [|discriminate]. cbn [obind] in E.
    destruct (cgo r t1) as [[is_ t2]|] eqn:E2; [|discriminate]. cbn [obind] in E. injection E as <- <-.
    cbn [map fst atomics flat_map snd app]. f_equal. eapply IH. exact E2.
  - cbn [atomics flat_map snd app]. eapply IH. exact E.
Qed.
Lemma add_aliases_names fs : forall m m', add_aliases fs m = Some m' -> exists ex, m' = (m ++ ex)%list /\ map fst ex = aliases fs.
Proof.
  induction fs as [|[n [c|f]] r IH]; intros m m' E; cbn [add_aliases] in E.
  - injection E as <-. exists []. split; [symmetry; apply app_nil_r|reflexivity].
  - apply IH in E. exact E.
  - destruct (call_ignoring_unused f m) as [v|] eqn:Ec; [|discriminate]. cbn [obind] in E.
    destruct (IH _ _ E) as (ex & -> & N). exists ((n, v) :: ex). split; [rewrite <- app_assoc; reflexivity|].
    cbn [map fst aliases flat_map snd app]. f_equal. exact N.
Qed.
Lemma add_aliases_at fs : forall m m' a n f b, add_aliases fs m = Some m' -> fs = (a ++ (n, inr f) :: b)%list ->
  exists before v after, m' = (m ++ before ++ (n, v) :: after)%list /\ map fst before = aliases a /\ call_ignoring_unused f (m ++ before) = Some v.
Proof.
  induction fs as [|[n' x] r IH]; intros m m' a n f b E Ef; [destruct a; discriminate|].
  destruct a as [|h a].
  - assert (K1 : (n', x) = (n, inr f)) by (unfold app in Ef; congruence). injection K1 as -> ->. assert (K2 : r = b) by (unfold app in Ef; congruence). subst b.
    cbn [add_aliases] in E. destruct (call_ignoring_unused f m) as [v|] eqn:Ec; [|discriminate]. cbn [obind] in E.
    destruct (add_aliases_names _ _ _ E) as (ex & -> & _). exists [], v, ex. rewrite <- app_assoc, app_nil_r. cbn. auto.
  - assert (K1 : (n', x) = h) by (cbn [app] in Ef; congruence). subst h. assert (K2 : r = (a ++ (n, inr f) :: b)%list) by (cbn [app] in Ef; congruence).
    destruct x as [c|g]; cbn [add_aliases] in E.
    + exact (IH _ _ _ _ _ _ E K2).
    + destruct (call_ignoring_unused g m) as [w|] eqn:Ec; [|discriminate]. cbn [obind] in E.
      destruct (IH _ _ _ _ _ _ E K2) as (before & v & after & -> & N & C). exists ((n', w) :: before), v, after.
      rewrite <- !app_assoc in *. cbn [app] in *. split; [reflexivity|]. split; [|exact C]. cbn [map fst aliases flat_map snd app]. f_equal. exact N.
Qed.

Lemma mem_in s l : mem s l = true <-> In s l.
Proof. unfold mem. rewrite existsb_exists. split; [intros (x & H & E); apply String.eqb_eq in E; subst; exact H|intros H; exists s; split; [exact H|apply String.eqb_refl]]. Qed.
Lemma assoc_app {A} k (l m : list (string * A)) : assoc k (l ++ m) = match assoc k l with Some v => Some v | None => assoc k m end.
Proof. induction l as [|[k' v] r IH]; [reflexivity|]. cbn [app assoc]. destruct (String.eqb k k'); [reflexivity|exact IH]. Qed.
Lemma assoc_none {A} k (l : list (string * A)) : assoc k l = None <-> ~ In k (map fst l).
Proof.
  induction l as [|[k' v] r IH]; cbn [assoc map fst In]; [tauto|]. destruct (String.eqb k k') eqn:E.
  - apply String.eqb_eq in E. subst. split; [discriminate|tauto].
  - apply String.eqb_neq in E. rewrite IH. intuition congruence.
Qed.
Lemma assoc_some {A} k (l : list (string * A)) : In k (map fst l) -> exists v, assoc k l = Some v.
Proof. intros H. destruct (assoc k l) eqn:E; [eauto|]. apply assoc_none in E. contradiction. Qed.
Lemma assoc_filter {A} (p : string -> bool) k (l : list (string * A)) v : assoc k (filter (fun a => p (fst a)) l) = Some v -> assoc k l = Some v.
Proof.
  induction l as [|[k' w] r IH]; [discriminate|]. cbn [filter fst assoc]. destruct (p k') eqn:E; cbn [assoc].
  - destruct (String.eqb k k'); [auto|exact IH].
  - intros H. destruct (String.eqb k k') eqn:Ek; [|exact (IH H)]. apply String.eqb_eq in Ek. subst k'. exfalso. clear IH.
    revert H. induction r as [|[k2 w2] r2 IH2]; [discriminate|]. cbn [filter fst]. destruct (p k2) eqn:E2; cbn [assoc]; [|exact IH2].
    destruct (String.eqb k k2) eqn:E3; [|exact IH2]. apply String.eqb_eq in E3. congruence.
Qed.
Lemma assoc_filter_in {A} (p : string -> bool) k (l : list (string * A)) : p k = true -> assoc k (filter (fun a => p (fst a)) l) = assoc k l.
Proof.
  intros H. induction l as [|[k' w] r IH]; [reflexivity|]. cbn [filter fst assoc]. destruct (String.eqb k k') eqn:Ek.
  - apply String.eqb_eq in Ek. subst k'. rewrite H. cbn [assoc]. rewrite String.eqb_refl. reflexivity.
  - destruct (p k'); cbn [assoc]; rewrite ?Ek; exact IH.
Qed.

Lemma renamed_same names : forall i, (forall n, In n names -> field_name n = true) -> renamed i names = names.
Proof. induction names as [|n r IH]; intros i H; [reflexivity|]. cbn [renamed]. rewrite (H n (or_introl eq_refl)). f_equal. apply IH. intros m Hm. apply H. right. exact Hm. Qed.
Lemma renamed_in names : forall i n, In n (renamed i names) -> field_name n = true \/ exists k, n = "_" ++ str_int k.
Proof.
  induction names as [|m r IH]; intros i n H; [destruct H|]. cbn [renamed] in H. destruct H as [E|H]; [|exact (IH _ _ H)].
  destruct (field_name m) eqn:F; [left; congruence|right; exists i; symmetry; exact E].
Qed.
Lemma omap_pairs (m : list (string * instance)) : forall names vs, omap (fun n => let* v := assoc n m in Some (n, v)) names = Some vs ->
  map fst vs = names /\ forall n, In n names -> assoc n vs = assoc n m.
Proof.
  induction names as [|n r IH]; intros vs E; cbn [omap] in E; [injection E as <-; split; [reflexivity|intros ? []]|].
  destruct (assoc n m) as [v|] eqn:Ea; [|discriminate]. cbn [obind] in E.
  destruct (omap _ r) as [ws|] eqn:Er; [|discriminate]. cbn [obind] in E. injection E as <-. destruct (IH ws eq_refl) as [N A].
  split; [cbn; congruence|]. intros k [<-|Hk]; cbn [assoc]; [rewrite String.eqb_refl; congruence|].
  destruct (String.eqb k n) eqn:E; [apply String.eqb_eq in E; subst; congruence|exact (A k Hk)].
Qed.
Lemma named_tuple_spec names m tile : (forall n, In n names -> field_name n = true) -> named_tuple names m = Some tile ->
  exists vs, tile = IRec vs /\ map fst vs = names /\ forall n, In n names -> assoc n vs = assoc n m.
Proof.
  intros F E. unfold named_tuple in E. rewrite renamed_same in E by exact F.
  destruct (forallb _ m); [|discriminate]. destruct (omap _ names) as [vs|] eqn:Eo; [|discriminate]. cbn [obind] in E. injection E as <-.
  exists vs. split; [reflexivity|]. exact (omap_pairs _ _ _ Eo).
Qed.
Lemma named_tuple_total names m : (forall n, In n names -> field_name n = true) -> Permutation (map fst m) names -> exists tile, named_tuple names m = Some tile.
Proof.
  intros F Pm. unfold named_tuple. rewrite renamed_same by exact F.
  replace (forallb _ m) with true.
  2:{ symmetry. apply forallb_forall. intros x Hx. apply mem_in. apply (Permutation_in _ Pm). apply in_map. exact Hx. }
  assert (K : exists vs, omap (fun n => let* v := assoc n m in Some (n, v)) names = Some vs); [|destruct K as [vs ->]; cbn [obind]; eauto].
  assert (I' : forall n, In n names -> In n (map fst m)) by (intros n Hn; apply (Permutation_in _ (Permutation_sym Pm) Hn)). clear F Pm.
  induction names as [|n r IH]; [cbn; eauto|]. cbn [omap]. destruct (assoc_some n m (I' n (or_introl eq_refl))) as [v ->]. cbn [obind].
  destruct IH as [vs ->]; [intros k Hk; apply I'; right; exact Hk|]. cbn [obind]. eauto.
Qed.

(** What a composite template creates. *)
Lemma create_parts fs top i top' : well_named (Comp fs) -> create (Comp fs) top = Some (i, top') ->
  exists m m' tile, cgo fs top = Some (m, top') /\ add_aliases fs m = Some m' /\ i = IRec tile /\ map fst tile = map fst fs /\
    NoDup (map fst m') /\ Permutation (map fst m') (map fst fs) /\ forall n, In n (map fst fs) -> assoc n tile = assoc n m'.
Proof.
  intros W E. inversion W as [|? Nd Fn Sub]; subst. rewrite create_comp in E. destruct (cgo fs top) as [[m t1]|] eqn:Eg; [|discriminate]. cbn [obind] in E.
  destruct (add_aliases fs m) as [m'|] eqn:Ea; [|discriminate]. cbn [obind] in E.
  destruct (named_tuple (map fst fs) m') as [tile|] eqn:Et; [|discriminate]. cbn [obind] in E.
  assert (E1 : tile = i /\ t1 = top') by (split; congruence). destruct E1 as [-> ->].
  destruct (named_tuple_spec _ _ _ Fn Et) as (vs & -> & Nv & Av).
  destruct (add_aliases_names _ _ _ Ea) as (ex & -> & Nx). pose proof (cgo_names _ _ _ _ Eg) as Nm.
  assert (Pm : Permutation (map fst (m ++ ex)) (map fst fs)) by (rewrite map_app, Nm, Nx; apply names_split).
  exists m, (m ++ ex)%list, vs. repeat (split; [solve [reflexivity | assumption | apply (Permutation_NoDup (Permutation_sym Pm) Nd)]|]). exact Av.
Qed.

Lemma cgo_at fs : forall top m top', cgo fs top = Some (m, top') -> NoDup (map fst fs) ->
  (forall n c, In (n, inl c) fs -> forall top i top', create c top = Some (i, top') -> exists j, stripped c i j /\ instantiate (without_aliases c) top = (j, top')) ->
  forall tile, (forall n, In n (atomics fs) -> assoc n tile = assoc n m) ->
  exists kept, keeps fs tile kept /\ comp_go ((fix keep fs := match fs with [] => [] | (n, inl c) :: r => (n, without_aliases c) :: keep r | (_, inr _) :: r => keep r end) fs) top = (kept, top').
Proof.
  induction fs as [|[n [c|f]] r IH]; intros top m top' E Nd Hc tile Ht; cbn [cgo] in E; fold cgo in E.
  - injection E as <- <-. exists []. split; [constructor|reflexivity].
  - destruct (create c top) as [[i t1]|] eqn:Ec; [|discriminate]. cbn [obind] in E.
    destruct (cgo r t1) as [[is_ t2]|] eqn:E2; [|discriminate]. cbn [obind] in E. injection E as <- <-.
    destruct (Hc n c (or_introl eq_refl) _ _ _ Ec) as (j & Sj & Ij). cbn [map fst] in Nd. inversion Nd as [|? ? Nn Nr]; subst.
    destruct (IH _ _ _ E2 Nr (fun n' c' H => Hc n' c' (or_intror H)) tile) as (kept & K & G).
    + intros k Hk. rewrite Ht by (cbn; right; exact Hk). cbn [assoc]. destruct (String.eqb k n) eqn:Ek; [|reflexivity].
      apply String.eqb_eq in Ek. subst k. exfalso. apply Nn. apply (Permutation_in _ (names_split r)). apply in_or_app. left. exact Hk.
    + exists ((n, j) :: kept). split.
      * econstructor; [|exact Sj|exact K]. rewrite Ht by (cbn; left; reflexivity). cbn [assoc]. rewrite String.eqb_refl. reflexivity.
      * cbn [comp_go]. fold comp_go. rewrite Ij, G. reflexivity.
  - cbn [map fst] in Nd. inversion Nd as [|? ? Nn Nr]; subst.
    destruct (IH _ _ _ E Nr (fun n' c' H => Hc n' c' (or_intror H)) tile Ht) as (kept & K & G).
    exists kept. split; [constructor; exact K|exact G].
Qed.
Lemma create_stripped c : well_named c -> forall top i top', create c top = Some (i, top') ->
  exists j, stripped c i j /\ instantiate (without_aliases c) top = (j, top').
Proof.
  induction c as [t|fs IH] using ctemplate_ind'; intros W top i top' E.
  - exists i. split; [constructor|]. cbn in E. cbn. congruence.
  - destruct (create_parts _ _ _ _ W E) as (m & m' & tile & Eg & Ea & -> & Nt & Nd & Pm & At). inversion W as [|? Nf Fn Sub]; subst.
    destruct (add_aliases_names _ _ _ Ea) as (ex & -> & Nx). pose proof (cgo_names _ _ _ _ Eg) as Nm.
    destruct (cgo_at fs top m top' Eg Nf (fun n c H => IH n c H (Sub n c H)) tile) as (kept & K & G).
    + intros n Hn. rewrite At by (apply (Permutation_in _ (names_split fs)); apply in_or_app; left; exact Hn).
      rewrite assoc_app. rewrite <- Nm in Hn. destruct (assoc_some n m Hn) as [v ->]. reflexivity.
    + exists (IRec kept). split; [constructor; exact K|]. cbn [without_aliases]. rewrite instantiate_comp, G. reflexivity.
Qed.
Lemma cvariable_count_without c : cvariable_count c = variable_count (without_aliases c).
Proof.
  induction c as [t|fs IH] using ctemplate_ind'; [reflexivity|]. cbn [cvariable_count without_aliases variable_count].
  induction fs as [|[n [c|f]] r IHr]; [reflexivity| |].
  - cbn [fold_right snd]. rewrite (IH n c (or_introl eq_refl)). f_equal. apply IHr. intros n' c' H. exact (IH n' c' (or_intror H)).
  - apply IHr. intros n' c' H. exact (IH n' c' (or_intror H)).
Qed.

Lemma cparse_stripped mapping c : forall i j, well_named c -> stripped c i j -> cparse c i mapping = parse (without_aliases c) j mapping.
Proof.
  induction c as [t|fs IH] using ctemplate_ind'; intros i j W H; inversion H; subst; [reflexivity|].
  inversion W as [|? Nd Fn Sub]; subst. cbn [cparse without_aliases parse]. f_equal.
  match goal with H' : keeps _ _ _ |- _ => rename H' into HK end.
  assert (G : forall all, (forall n j, assoc n kept = Some j -> assoc n all = Some j) -> forall fs', (forall n c, In (n, inl c) fs' -> In (n, inl c) fs) ->
    NoDup (map fst fs') -> forall kept', keeps fs' tile kept' -> (forall n j, assoc n kept' = Some j -> assoc n all = Some j) ->
    (fix go (fs : list (string * (ctemplate + func))) : option (list (string * parsed)) :=
       match fs with
       | [] => Some []
       | (name, inl c) :: r => let* x := assoc name tile in let* p := cparse c x mapping in let* ps := go r in Some ((name, p) :: ps)
       | (_, inr _) :: r => go r
       end) fs' =
    (fix go (fs : list (string * template)) : option (list (string * parsed)) :=
       match fs with
       | [] => Some []
       | (name, c) :: rest => let* x := assoc name all in let* p := parse c x mapping in let* ps := go rest in Some ((name, p) :: ps)
       end) ((fix keep fs := match fs with [] => [] | (n, inl c) :: r => (n, without_aliases c) :: keep r | (_, inr _) :: r => keep r end) fs')).
  { intros all _ fs'. induction fs' as [|[n [c|f]] r IHr]; intros Hs Nd' kept' K' Hk; [reflexivity| |].
    - inversion K' as [|? ? ? ? i0 j0 kr Ha Hst Hr|]; subst. cbn [map fst] in Nd'. inversion Nd' as [|? ? Nn Nr]; subst.
      rewrite Ha, (Hk n j0) by (cbn [assoc]; rewrite String.eqb_refl; reflexivity). cbn [obind].
      rewrite (IH n c (Hs n c (or_introl eq_refl)) i0 j0 (Sub n c (Hs n c (or_introl eq_refl))) Hst).
      destruct (parse _ j0 mapping); [|reflexivity]. cbn [obind].
      rewrite (IHr (fun n' c' H' => Hs n' c' (or_intror H')) Nr kr Hr); [reflexivity|].
      intros k v Hv. apply Hk. cbn [assoc]. destruct (String.eqb k n) eqn:Ek; [|exact Hv]. exfalso. apply String.eqb_eq in Ek. subst k. apply Nn.
      apply (Permutation_in _ (names_split r)). apply in_or_app. left.
      assert (Kn : forall fs kept, keeps fs tile kept -> map fst kept = atomics fs).
      { clear. induction fs as [|[n [c|f]] r IH]; intros kept K; inversion K; subst; [reflexivity| |]; cbn [map fst atomics flat_map snd app]; [f_equal|]; apply IH; assumption. }
      rewrite <- (Kn _ _ Hr). destruct (in_dec string_dec n (map fst kr)) as [Y|Y]; [exact Y|]. apply assoc_none in Y. congruence.
    - inversion K' as [| |? ? ? ? ? Hr]; subst. cbn [map fst] in Nd'. inversion Nd' as [|? ? Nn Nr]; subst.
      exact (IHr (fun n' c' H' => Hs n' c' (or_intror H')) Nr kept' Hr Hk). }
  apply (G kept (fun n j H => H) fs (fun n c H => H) Nd kept HK (fun n j H => H)).
Qed.
