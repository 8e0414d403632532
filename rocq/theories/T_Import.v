(** C122: an imported blueprint has each entity in its place. *)
From Coq Require Import ZArith List Bool String Lia.
From Verif Require Import Spec_Tile Spec_Layout Spec_Transform Spec_Blueprint M_Json M_Tile M_Blueprint Spec_Import P_Tile P_Rotate P_Layout P_Blueprint.
Import ListNotations.
Local Open Scope string_scope.
Open Scope Z_scope.

(** ** One entity *)
Lemma faces_from e d : faces e d <-> from_factorio (match e_direction e with Some k => k | None => 0 end) = Some d.
Proof.
  unfold faces, from_factorio. set (k := match e_direction e with Some k => k | None => 0 end).
  assert (E : (1 - k / 2) mod 4 = (1 - (k mod 8) / 2) mod 4).
  { replace (k / 2) with ((k mod 8) / 2 + 4 * (k / 8)).
    - replace (1 - (k mod 8 / 2 + 4 * (k / 8))) with (1 - k mod 8 / 2 + (- (k / 8)) * 4) by lia. apply Z.mod_add. lia.
    - rewrite (Z.div_mod k 8) at 3 by lia. replace (8 * (k / 8) + k mod 8) with (k mod 8 + (4 * (k / 8)) * 2) by lia. rewrite Z.div_add by lia. reflexivity. }
  rewrite E. assert (B : 0 <= k mod 8 / 2 < 4) by (pose proof (Z.mod_pos_bound k 8 ltac:(lia)); split; [apply Z.div_pos; lia|apply Z.div_lt_upper_bound; lia]).
  assert (C : k mod 8 / 2 = 0 \/ k mod 8 / 2 = 1 \/ k mod 8 / 2 = 2 \/ k mod 8 / 2 = 3) by lia.
  destruct C as [-> | [-> | [-> | ->]]]; destruct d; vm_compute; split; congruence.
Qed.
Lemma prefix_app p s : String.prefix p s = true <-> exists r, s = p ++ r.
Proof.
  revert s. induction p as [|c p IH]; intros s; [split; [intros _; exists s; reflexivity|destruct s; reflexivity]|].
  destruct s as [|c' s]; cbn [String.prefix append]; [split; [discriminate|intros (r & E); discriminate]|].
  destruct (Ascii.ascii_dec c c') as [->|N]; [rewrite IH; split; intros (r & E); exists r; congruence|]. split; [discriminate|]. intros (r & E). congruence.
Qed.
Lemma variant_in f n : existsb (fun l => String.eqb n (f l)) levels = true <-> In n (map f levels).
Proof.
  rewrite existsb_exists, in_map_iff. split; intros (l & A & B); exists l; [apply String.eqb_eq in B; auto|]. split; [exact B|]. apply String.eqb_eq. auto.
Qed.
Lemma named_in n l : existsb (String.eqb n) l = true <-> In n l.
Proof. rewrite existsb_exists. split; [intros (x & A & B); apply String.eqb_eq in B; subst; exact A|intros H; exists n; split; [exact H|apply String.eqb_refl]]. Qed.
Lemma import_entity_puts e l : import_entity e = Some l -> forall p t, In (p, t) l <-> puts e p t.
Proof.
  unfold import_entity. destruct (e_name e) as [n|] eqn:En; [|discriminate]. cbn [obind].
  destruct (from_factorio _) as [d|] eqn:Ed; [|discriminate]. cbn [obind]. pose proof (proj2 (faces_from e d) Ed) as F.
  assert (F' : forall d', faces e d' -> d' = d) by (intros d' H; apply faces_from in H; congruence).
  change (map splitter_variant levels) with splitters in *.
  destruct (existsb (fun l => String.eqb n (splitter_variant l)) levels) eqn:Es.
  { apply variant_in in Es. change (map splitter_variant levels) with splitters in Es.
    replace (dir_vec (next d)) with (- step_x (right_hand d), - step_y (right_hand d)) by (destruct d; reflexivity). intros E.
    assert (l = [((e_x2 e + - step_x (right_hand d)) / 2, (e_y2 e + - step_y (right_hand d)) / 2, Splitter d false); ((e_x2 e - - step_x (right_hand d)) / 2, (e_y2 e - - step_y (right_hand d)) / 2, Splitter d true)]) by congruence.
    subst l. rewrite !Z.sub_opp_r, !Z.add_opp_r. intros p t. cbn [In]. split.
    - intros [H|[H|[]]].
      + assert (K1 := f_equal fst H). assert (K2 := f_equal snd H). cbn [fst snd] in K1, K2. rewrite <- K1, <- K2. exact (puts_left e n d En Es F).
      + assert (K1 := f_equal fst H). assert (K2 := f_equal snd H). cbn [fst snd] in K1, K2. rewrite <- K1, <- K2. exact (puts_right e n d En Es F).
    - intros H. destruct H as [m d' Hm Hi Hf|m d' k Hm Hi Hf Hk|m d' Hm Hi Hf|m d' Hm Hi Hf|m d' Hm Hi Hf|d' Hm Hf|m i j Hm Hi Hj|Hm]; rewrite En in Hm; assert (Q := f_equal (fun o => match o with Some s => s | None => "" end) Hm); cbn beta iota in Q; subst n.
      1,2: exfalso; clear -Es Hi; cbn in Es, Hi; intuition congruence.
      + apply F' in Hf. subst d'. auto.
      + apply F' in Hf. subst d'. auto.
      + exfalso; clear -Es Hi; cbn in Es, Hi; intuition congruence.
      + exfalso; clear -Es; cbn in Es; intuition congruence.
      + exfalso; clear -Es; cbn in Es; intuition congruence.
      + exfalso; clear -Es; cbn in Es; intuition congruence. }
  assert (Es' : ~ In n splitters) by (intros H; apply (proj2 (variant_in splitter_variant n)) in H; congruence). clear Es.
  destruct (existsb (fun l => String.eqb n (belt_variant l)) levels) eqn:Eb.
  { apply variant_in in Eb. change (map belt_variant levels) with belts in Eb. replace (mk_belt d d) with (Some (Belt d d)) by (destruct d; reflexivity). cbn [obind]. intros E.
    assert (l = [(cell e, Belt d d)]) by (unfold cell; congruence). subst l. intros p t. cbn [In]. split.
    - intros [H|[]]. assert (K1 := f_equal fst H). assert (K2 := f_equal snd H). cbn [fst snd] in K1, K2. rewrite <- K1, <- K2. exact (puts_belt e n d En Eb F).
    - intros H. left. destruct H as [m d' Hm Hi Hf|m d' k Hm Hi Hf Hk|m d' Hm Hi Hf|m d' Hm Hi Hf|m d' Hm Hi Hf|d' Hm Hf|m i j Hm Hi Hj|Hm]; rewrite En in Hm; assert (Q := f_equal (fun o => match o with Some s => s | None => "" end) Hm); cbn beta iota in Q; subst n; try contradiction.
      + apply F' in Hf. subst d'. reflexivity.
      + exfalso; clear -Eb Hi; cbn in Eb, Hi; intuition congruence.
      + exfalso; clear -Eb Hi; cbn in Eb, Hi; intuition congruence.
      + exfalso; clear -Eb; cbn in Eb; intuition congruence.
      + exfalso; clear -Eb; cbn in Eb; intuition congruence.
      + exfalso; clear -Eb; cbn in Eb; intuition congruence. }
  assert (Eb' : ~ In n belts) by (intros H; apply (proj2 (variant_in belt_variant n)) in H; congruence). clear Eb.
  destruct (existsb (fun l => String.eqb n (underground_variant l)) levels) eqn:Eu.
  { apply variant_in in Eu. change (map underground_variant levels) with undergrounds in Eu. destruct (e_type e) as [ty|] eqn:Ety; [|discriminate]. cbn [obind]. intros E.
    assert (l = [(cell e, Underground d (String.eqb ty "input"))]) by (unfold cell; congruence). subst l. intros p t. cbn [In]. split.
    - intros [H|[]]. assert (K1 := f_equal fst H). assert (K2 := f_equal snd H). cbn [fst snd] in K1, K2. rewrite <- K1, <- K2. exact (puts_underground e n d ty En Eu F Ety).
    - intros H. left. destruct H as [m d' Hm Hi Hf|m d' k Hm Hi Hf Hk|m d' Hm Hi Hf|m d' Hm Hi Hf|m d' Hm Hi Hf|d' Hm Hf|m i j Hm Hi Hj|Hm]; rewrite En in Hm; assert (Q := f_equal (fun o => match o with Some s => s | None => "" end) Hm); cbn beta iota in Q; subst n; try contradiction.
      + apply F' in Hf. subst d'. assert (k = ty) by congruence. subst. reflexivity.
      + exfalso; clear -Eu Hi; cbn in Eu, Hi; intuition congruence.
      + exfalso; clear -Eu; cbn in Eu; intuition congruence.
      + exfalso; clear -Eu; cbn in Eu; intuition congruence.
      + exfalso; clear -Eu; cbn in Eu; intuition congruence. }
  assert (Eu' : ~ In n undergrounds) by (intros H; apply (proj2 (variant_in underground_variant n)) in H; congruence). clear Eu.
  destruct (existsb (String.eqb n) inserter_names) eqn:Ei.
  { apply named_in in Ei. change inserter_names with short_inserters in Ei. replace (reverse d) with (opposite d) by (destruct d; reflexivity). intros E.
    assert (l = [(cell e, Inserter (opposite d) 0)]) by (unfold cell; congruence). subst l. intros p t. cbn [In]. split.
    - intros [H|[]]. assert (K1 := f_equal fst H). assert (K2 := f_equal snd H). cbn [fst snd] in K1, K2. rewrite <- K1, <- K2. exact (puts_inserter e n d En Ei F).
    - intros H. left. destruct H as [m d' Hm Hi Hf|m d' k Hm Hi Hf Hk|m d' Hm Hi Hf|m d' Hm Hi Hf|m d' Hm Hi Hf|d' Hm Hf|m i j Hm Hi Hj|Hm]; rewrite En in Hm; assert (Q := f_equal (fun o => match o with Some s => s | None => "" end) Hm); cbn beta iota in Q; subst n; try contradiction.
      + apply F' in Hf. subst d'. reflexivity.
      + exfalso; clear -Ei; cbn in Ei; intuition congruence.
      + exfalso; clear -Ei; cbn in Ei; intuition congruence.
      + exfalso; clear -Ei; cbn in Ei; intuition congruence. }
  assert (Ei' : ~ In n short_inserters) by (intros H; apply (proj2 (named_in n inserter_names)) in H; congruence). clear Ei.
  destruct (String.eqb_spec n "long-handed-inserter") as [El|El].
  { subst n. replace (reverse d) with (opposite d) by (destruct d; reflexivity). intros E. assert (l = [(cell e, Inserter (opposite d) 1)]) by (unfold cell; congruence). subst l. intros p t. cbn [In]. split.
    - intros [H|[]]. assert (K1 := f_equal fst H). assert (K2 := f_equal snd H). cbn [fst snd] in K1, K2. rewrite <- K1, <- K2. exact (puts_long e d En F).
    - intros H. left. destruct H as [m d' Hm Hi Hf|m d' k Hm Hi Hf Hk|m d' Hm Hi Hf|m d' Hm Hi Hf|m d' Hm Hi Hf|d' Hm Hf|m i j Hm Hi Hj|Hm]; rewrite En in Hm; assert (Q := f_equal (fun o => match o with Some s => s | None => "" end) Hm); cbn beta iota in Q; try (subst m; contradiction); try discriminate Q.
      apply F' in Hf. subst d'. reflexivity. }
  destruct (starts_with "assembling-machine-" n) eqn:Em.
  { unfold starts_with in Em. apply prefix_app in Em. destruct Em as [r Er]. intros E. assert (Q0 := f_equal (fun o => match o with Some s => s | None => [] end) E). cbn beta iota in Q0. subst l. clear E.
    intros p t. rewrite <- in_rev, in_flat_map. assert (Z3 : forall i, In i [0; 1; 2] <-> 0 <= i <= 2) by (intros i; cbn; lia). split.
    - intros (i & Hi & H). apply in_map_iff in H. destruct H as (j & H & Hj). apply Z3 in Hi, Hj. assert (K1 := f_equal fst H). assert (K2 := f_equal snd H). cbn [fst snd] in K1, K2. rewrite <- K1, <- K2.
      apply (puts_machine e r i j); [congruence|exact Hi|exact Hj].
    - intros H. destruct H as [m d' Hm Hi Hf|m d' k Hm Hi Hf Hk|m d' Hm Hi Hf|m d' Hm Hi Hf|m d' Hm Hi Hf|d' Hm Hf|m i j Hm Hi Hj|Hm]; rewrite En in Hm; assert (Q := f_equal (fun o => match o with Some s => s | None => "" end) Hm); cbn beta iota in Q; try (subst m; contradiction); try contradiction.
      + exists i. split; [apply Z3; exact Hi|]. apply in_map_iff. exists j. split; [reflexivity|apply Z3; exact Hj].
      + exfalso. rewrite Q in Er. discriminate. }
  destruct (String.eqb_spec n "wooden-chest") as [Ew|Ew]; [|discriminate].
  subst n. intros E. assert (l = [(cell e, Filler)]) by (unfold cell; congruence). subst l. intros p t. cbn [In]. split.
  - intros [H|[]]. assert (K1 := f_equal fst H). assert (K2 := f_equal snd H). cbn [fst snd] in K1, K2. rewrite <- K1, <- K2. exact (puts_chest e En).
  - intros H. left. destruct H as [m d' Hm Hi Hf|m d' k Hm Hi Hf Hk|m d' Hm Hi Hf|m d' Hm Hi Hf|m d' Hm Hi Hf|d' Hm Hf|m i j Hm Hi Hj|Hm]; rewrite En in Hm; assert (Q := f_equal (fun o => match o with Some s => s | None => "" end) Hm); cbn beta iota in Q; try (subst m; contradiction); try contradiction; try discriminate Q. reflexivity.
Qed.
Lemma import_entities_puts es : forall acc l, import_entities acc es = Some l ->
  forall p t, In (p, t) l <-> In (p, t) acc \/ exists e, In e es /\ puts e p t.
Proof.
  induction es as [|e es IH]; intros acc l E p t; cbn [import_entities] in E.
  - assert (l = acc) by congruence. subst. split; [auto|]. intros [H|(? & [] & _)]; exact H.
  - destruct (import_entity e) as [k|] eqn:Ee; [|discriminate]. cbn [obind] in E. rewrite (IH _ _ E), in_app_iff, (import_entity_puts e k Ee). split.
    + intros [[H|H]|(x & Hx & H)]; [right; exists e; cbn; auto|left; exact H|right; exists x; cbn; auto].
    + intros [H|(x & [<-|Hx] & H)]; [auto|auto|right; exists x; auto].
Qed.
(** ** The belts that bend *)
Lemma resolve_cells_inv w h T0 ps : NoDup ps -> forall T T', same_outputs T T0 -> (forall p, In p ps -> T p = T0 p) -> resolve_cells w h T ps = Some T' ->
  forall q, (In q ps -> T' q = resolved w h T0 q) /\ (~ In q ps -> T' q = T q).
Proof.
  induction 1 as [|p ps Hp N IH]; intros T T' HO HT E; cbn [resolve_cells] in E.
  - assert (T' = T) by congruence. subst. intros q. split; [intros []|reflexivity].
  - destruct (resolve_cell w h T p) as [T1|] eqn:E1; [|discriminate]. cbn [obind] in E.
    assert (Tp : T p = T0 p) by (apply HT; left; reflexivity).
    assert (S1 : T1 p = resolved w h T0 p /\ (forall q, q <> p -> T1 q = T q) /\ same_outputs T1 T0).
    { unfold resolve_cell in E1. unfold resolved. rewrite Tp in E1. destruct (T0 p) as [| |i o|d e|d e|d k|a b] eqn:E0; try (assert (T1 = T) by congruence; subst T1; split; [congruence|split; [reflexivity|exact HO]]).
      rewrite (scan_ext _ (feeds_cell T0 w h (fst p) (snd p))) in E1 by (intros d; apply feeds_cell_ext; assumption). unfold mk_belt in E1. destruct (dir_eqb _ o); [discriminate|]. cbn [obind] in E1.
      assert (Q := f_equal (fun o => match o with Some s => s | None => T end) E1). cbn beta iota in Q. subst T1. split; [|split].
      - cbv beta. destruct (pos_eqb_spec p p); [reflexivity|contradiction].
      - intros q Hq. cbv beta. destruct (pos_eqb_spec q p); [contradiction|reflexivity].
      - intros q. cbv beta. destruct (pos_eqb_spec q p) as [->|Hq]; [rewrite E0; reflexivity|apply HO]. }
    destruct S1 as (A & B & C). assert (HT1 : forall q, In q ps -> T1 q = T0 q) by (intros q Hq; rewrite B by (intros ->; contradiction); apply HT; right; exact Hq).
    intros q. specialize (IH T1 T' C HT1 E). split.
    + intros [<-|Hq]; [|apply IH; exact Hq]. rewrite (proj2 (IH p) Hp). exact A.
    + intros Hq. rewrite (proj2 (IH q)) by (intros K; apply Hq; right; exact K). apply B. intros ->. apply Hq. left. reflexivity.
Qed.
Lemma resolved_bent w h T p : bent (T p) (resolved w h T p).
Proof. unfold resolved, bent. destruct (T p); try reflexivity. eexists. reflexivity. Qed.
Lemma bent_pushes t u d : bent t u -> (pushes t d <-> pushes u d).
Proof. destruct t; cbn [bent]; try (intros ->; tauto). intros (k & ->). cbn. tauto. Qed.
Lemma neighbour_closed w h p d q : neighbour (closed w h) p d = Some q <-> q = (fst p + step_x d, snd p + step_y d) /\ inside (closed w h) q.
Proof.
  unfold neighbour, ahead, place. cbn [wrapx wrapy closed fst snd]. rewrite !Z.mul_1_l. set (r := (fst p + step_x d, snd p + step_y d)).
  destruct (insideb (closed w h) r) eqn:E.
  - apply insideb_iff in E. split; [intros [= <-]; auto|intros [-> _]; reflexivity].
  - split; [discriminate|]. intros [-> H]. apply insideb_iff in H. congruence.
Qed.
Lemma resolved_inferred w h T p i o : inside (closed w h) p -> resolved w h T p = Belt i o ->
  inferred_input (closed w h) (resolved w h T) p o i.
Proof.
  intros Hp E. assert (FC : forall d, feeds_cell T w h (fst p) (snd p) d = true <-> fed_from (closed w h) (resolved w h T) p d).
  { intros d. rewrite feeds_cell_iff. unfold fed_from. split.
    - intros [Hi Hu]. eexists. split; [apply neighbour_closed; split; [reflexivity|]|].
      + replace (step_x (opposite d)) with (- step_x d) by (destruct d; reflexivity). replace (step_y (opposite d)) with (- step_y d) by (destruct d; reflexivity). rewrite !Z.add_opp_r. exact Hi.
      + replace (step_x (opposite d)) with (- step_x d) by (destruct d; reflexivity). replace (step_y (opposite d)) with (- step_y d) by (destruct d; reflexivity). rewrite !Z.add_opp_r. apply (bent_pushes _ _ d (resolved_bent w h T _)). exact Hu.
    - intros (q & Hn & Hu). apply neighbour_closed in Hn. destruct Hn as [-> Hi].
      replace (step_x (opposite d)) with (- step_x d) in * by (destruct d; reflexivity). replace (step_y (opposite d)) with (- step_y d) in * by (destruct d; reflexivity). rewrite !Z.add_opp_r in *.
      split; [exact Hi|]. apply (bent_pushes _ _ d (resolved_bent w h T _)). exact Hu. }
  unfold resolved in E. destruct (T p) as [| |i0 o0|? ?|? ?|? ?|? ?] eqn:Tp; try discriminate.
  destruct (scan_inputs _ all_dirs None) as [k|] eqn:Es.
  - assert (k = i /\ o0 = o) as [-> ->] by (split; congruence). left. apply scan_inputs_spec in Es. destruct Es as [A B]. split; [apply FC; exact A|]. intros d Hd. apply B, FC, Hd.
  - assert (o0 = i /\ o0 = o) as [-> ->] by (split; congruence). right. split; [reflexivity|]. intros (d & A & B).
    assert (K : scan_inputs (feeds_cell T w h (fst p) (snd p)) all_dirs None = Some d); [|congruence]. apply scan_inputs_spec. split; [apply FC; exact A|]. intros e He. apply B, FC, He.
Qed.

(** ** C122 *)
(** Entities that do not stand on each other are all in the grid at their places,
    relative to a corner; the grid has nothing else, is no larger than need be,
    and belts bend as the game bends them. *)
Theorem C122_places es g : es <> [] -> import_blueprint es = Some g ->
  (forall e e' p t t', In e es -> In e' es -> puts e p t -> puts e' p t' -> t = t') ->
  exists x0 y0 w h, 0 < w /\ 0 < h /\ rect (Z.to_nat h) (Z.to_nat w) g /\
    (forall e p t, In e es -> puts e p t ->
       inside (closed w h) (fst p - x0, snd p - y0) /\ bent t (layout_of g (fst p - x0, snd p - y0))) /\
    (forall x y, inside (closed w h) (x, y) -> (forall e t, In e es -> ~ puts e (x + x0, y + y0) t) -> layout_of g (x, y) = Empty) /\
    (exists e p t, In e es /\ puts e p t /\ fst p = x0) /\ (exists e p t, In e es /\ puts e p t /\ snd p = y0) /\
    (exists e p t, In e es /\ puts e p t /\ fst p = x0 + w - 1) /\ (exists e p t, In e es /\ puts e p t /\ snd p = y0 + h - 1) /\
    inputs_inferred (closed w h) (layout_of g).
Proof.
  intros NE E Dis. unfold import_blueprint in E. destruct es as [|e0 es0] eqn:Ees; [contradiction|]. rewrite <- Ees in *. clear NE Ees e0 es0.
  destruct (import_entities [] es) as [D|] eqn:ED; [|discriminate]. cbn [obind] in E.
  assert (Din : forall p t, In (p, t) D <-> exists e, In e es /\ puts e p t) by (intros p t; rewrite (import_entities_puts es [] D ED); cbn [In]; tauto). clear ED.
  assert (ND : D <> []) by (intros ->; discriminate E).
  destruct (min_list_some (map (fun c => fst (fst c)) D)) as (mx & Emx & Imx & Lmx); [destruct D; [contradiction|discriminate]|].
  destruct (min_list_some (map (fun c => snd (fst c)) D)) as (my & Emy & Imy & Lmy); [destruct D; [contradiction|discriminate]|].
  rewrite Emx, Emy in E. cbn [obind] in E. set (D' := map (fun c => (fst (fst c) - mx, snd (fst c) - my, snd c)) D) in *.
  destruct (max_list_some (map (fun c => fst (fst c)) D')) as (Mx & EMx & IMx & LMx); [unfold D'; destruct D; [contradiction|discriminate]|].
  destruct (max_list_some (map (fun c => snd (fst c)) D')) as (My & EMy & IMy & LMy); [unfold D'; destruct D; [contradiction|discriminate]|].
  rewrite EMx, EMy in E. cbn [obind] in E. set (T := fun p => match lookup p D' with Some t => t | None => Empty end) in *.
  destruct (resolve_cells _ _ T _) as [T'|] eqn:ER; [|discriminate]. cbn [obind] in E. assert (g = rows_of (Mx + 1) (My + 1) T') by congruence. subst g. clear E.
  pose proof (resolve_cells_inv _ _ T _ (NoDup_cells _ _) T T' (fun q => eq_refl) (fun p _ => eq_refl) ER) as HT'. clear ER.
  assert (D'in : forall p t, In (p, t) D' <-> In ((fst p + mx, snd p + my), t) D).
  { intros p t. unfold D'. rewrite in_map_iff. split.
    - intros ([[a b] u] & H & HD). cbn [fst snd] in H. assert (K1 := f_equal fst H). assert (K2 := f_equal snd H). cbn [fst snd] in K1, K2. subst p t. cbn [fst snd]. rewrite !Z.sub_add. exact HD.
    - intros HD. exists (fst p + mx, snd p + my, t). split; [|exact HD]. cbn [fst snd]. rewrite !Z.add_simpl_r. destruct p; reflexivity. }
  assert (Bx : forall p t, In (p, t) D' -> inside (closed (Mx + 1) (My + 1)) p).
  { intros p t H. unfold inside. cbn [closed aw ah]. assert (A1 : fst p <= Mx) by (apply LMx; apply in_map_iff; exists (p, t); auto). assert (A2 : snd p <= My) by (apply LMy; apply in_map_iff; exists (p, t); auto).
    apply D'in in H. assert (A3 : mx <= fst p + mx) by (apply Lmx; apply in_map_iff; exists (fst p + mx, snd p + my, t); auto). assert (A4 : my <= snd p + my) by (apply Lmy; apply in_map_iff; exists (fst p + mx, snd p + my, t); auto). lia. }
  assert (Lay : forall p, inside (closed (Mx + 1) (My + 1)) p -> layout_of (rows_of (Mx + 1) (My + 1) T') p = resolved (Mx + 1) (My + 1) T p).
  { intros [x y] H. unfold inside in H. cbn [closed aw ah fst snd] in H. rewrite layout_rows_of by lia. apply HT'. apply cells_in. cbn [fst snd]. lia. }
  assert (Nonneg : 0 <= Mx /\ 0 <= My).
  { apply in_map_iff in IMx. destruct IMx as ([p t] & _ & H). apply Bx in H. unfold inside in H. cbn [closed aw ah] in H. lia. }
  exists mx, my, (Mx + 1), (My + 1). split; [lia|]. split; [lia|]. split; [apply rows_of_rect; lia|].
  assert (Put : forall e p t, In e es -> puts e p t -> In ((fst p - mx, snd p - my), t) D').
  { intros e p t He Hp. apply D'in. cbn [fst snd]. rewrite !Z.sub_add. apply Din. exists e. split; [exact He|]. destruct p; exact Hp. }
  split; [|split; [|split; [|split; [|split; [|split]]]]].
  - intros e p t He Hp. pose proof (Put e p t He Hp) as H. split; [exact (Bx _ _ H)|]. rewrite Lay by exact (Bx _ _ H). set (q := (fst p - mx, snd p - my)) in *.
    assert (Tq : T q = t); [|rewrite <- Tq; apply resolved_bent]. unfold T. destruct (lookup q D') as [u|] eqn:Eq.
    + apply lookup_in in Eq. apply D'in in Eq. unfold q in Eq. cbn [fst snd] in Eq. rewrite !Z.sub_add in Eq. apply Din in Eq. destruct Eq as (e' & He' & Hu). replace (fst p, snd p) with p in Hu by (destruct p; reflexivity). symmetry. exact (Dis e e' p t u He He' Hp Hu).
    + exfalso. exact (proj1 (lookup_none q D') Eq t H).
  - intros x y Hi HN. rewrite Lay by exact Hi. assert (Tq : T (x, y) = Empty); [|unfold resolved; rewrite Tq; reflexivity]. unfold T. destruct (lookup (x, y) D') as [u|] eqn:Eq; [|reflexivity].
    exfalso. apply lookup_in in Eq. apply D'in in Eq. cbn [fst snd] in Eq. apply Din in Eq. destruct Eq as (e & He & Hu). exact (HN e u He Hu).
  - apply in_map_iff in Imx. destruct Imx as ([p t] & <- & H). apply Din in H. destruct H as (e & He & Hu). exists e, p, t. auto.
  - apply in_map_iff in Imy. destruct Imy as ([p t] & <- & H). apply Din in H. destruct H as (e & He & Hu). exists e, p, t. auto.
  - apply in_map_iff in IMx. destruct IMx as ([p t] & EM & H). cbn [fst] in EM. apply D'in in H. apply Din in H. destruct H as (e & He & Hu). exists e, (fst p + mx, snd p + my), t. split; [exact He|]. split; [exact Hu|]. cbn [fst]. lia.
  - apply in_map_iff in IMy. destruct IMy as ([p t] & EM & H). cbn [fst snd] in EM. apply D'in in H. apply Din in H. destruct H as (e & He & Hu). exists e, (fst p + mx, snd p + my), t. split; [exact He|]. split; [exact Hu|]. cbn [snd]. lia.
  - intros p i o Hp Eb. rewrite Lay in Eb by exact Hp. pose proof (resolved_inferred _ _ T p i o Hp Eb) as R.
    assert (FF : forall d, fed_from (closed (Mx + 1) (My + 1)) (layout_of (rows_of (Mx + 1) (My + 1) T')) p d <-> fed_from (closed (Mx + 1) (My + 1)) (resolved (Mx + 1) (My + 1) T) p d).
    { intros d. unfold fed_from. split; intros (q & Hn & Hu); exists q; (split; [exact Hn|]); apply neighbour_closed in Hn; destruct Hn as [_ Hq]; rewrite (Lay q Hq) in *; exact Hu. }
    destruct R as [[A B]|[A B]]; [left|right].
    + split; [apply FF; exact A|]. intros d Hd. apply B, FF, Hd.
    + split; [exact A|]. intros (d & Hd & Hd'). apply B. exists d. split; [apply FF; exact Hd|]. intros e He. apply Hd', FF, He.
Qed.
(** An entity that puts nothing, such as one with a name that is not known, makes
    the import fail. *)
Theorem C122_unknown es e : In e es -> (forall p t, ~ puts e p t) -> import_blueprint es = None.
Proof.
  intros He Hn. assert (N : import_entity e = None).
  { destruct (import_entity e) as [[|[p t] l]|] eqn:Ee; [|exfalso; apply (Hn p t); apply (import_entity_puts e _ Ee); left; reflexivity|reflexivity]. exfalso. clear -Ee. unfold import_entity in Ee. destruct (e_name e); [|discriminate]. cbn [obind] in Ee.
    destruct (from_factorio _); [|discriminate]. cbn [obind] in Ee. destruct (existsb _ levels); [destruct (dir_vec _); discriminate|]. destruct (existsb _ levels); [destruct (mk_belt _ _); discriminate|].
    destruct (existsb _ levels); [destruct (e_type e); discriminate|]. destruct (existsb _ _); [discriminate|]. destruct (String.eqb _ _); [discriminate|]. destruct (starts_with _ _); [discriminate|]. destruct (String.eqb _ _); discriminate. }
  assert (K : forall acc, import_entities acc es = None).
  { clear -He N. induction es as [|x es IH]; [destruct He|]. intros acc. cbn [import_entities]. destruct He as [->|He]; [rewrite N; reflexivity|]. destruct (import_entity x); [apply (IH He)|reflexivity]. }
  unfold import_blueprint. destruct es; [destruct He|]. rewrite K. reflexivity.
Qed.

(** A machine, an inserter that feeds it, and the belt that the inserter takes from. *)
Definition ent (x2 y2 : Z) (n : string) (d : option Z) : entity := {| e_number := 1; e_x2 := x2; e_y2 := y2; e_name := Some n; e_direction := d; e_type := None |}.
Example C122_met : import_blueprint [ent 7 7 "assembling-machine-2" None; ent 1 7 "transport-belt" (Some 4); ent 3 7 "inserter" (Some 6); ent (-1) 7 "fast-transport-belt" (Some 2)] =
  Some [[Empty; Empty; Empty; Assembler 0 0; Assembler 1 0; Assembler 2 0];
        [Belt RIGHT RIGHT; Belt RIGHT DOWN; Inserter RIGHT 0; Assembler 0 1; Assembler 1 1; Assembler 2 1];
        [Empty; Empty; Empty; Assembler 0 2; Assembler 1 2; Assembler 2 2]].
Proof. vm_compute. reflexivity. Qed.
Example C122_unknown_met : forall p t, ~ puts (ent 1 1 "beacon" None) p t.
Proof. intros p t H. destruct H as [m d' Hm Hi Hf|m d' k Hm Hi Hf Hk|m d' Hm Hi Hf|m d' Hm Hi Hf|m d' Hm Hi Hf|d' Hm Hf|m i j Hm Hi Hj|Hm]; cbn in Hm; try discriminate; assert (m = "beacon") by congruence; subst m; cbn in Hi; intuition discriminate. Qed.

Print Assumptions C122_places.
Print Assumptions C122_unknown.
