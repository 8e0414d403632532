(** What enforce_edge_splitters and prevent_double_edge_belts say. *)
From Coq Require Import String ZArith List Bool Lia Permutation.
From Verif Require Import P_Network P_Network2 P_Benes P_Nonneg P_Similar T_Network.
From Verif Require Import Spec_Cnf Spec_Tile Spec_Layout M_Json M_Tile M_Util M_Card M_Network Spec_Network M_Template M_Grid M_Oracle M_Balancer
  P_Cnf P_Util P_Card P_Tile P_Layout P_List P_Template P_Walk P_Grid P_GridSound P_GridComplete P_Transport T_Grid T_Enumerate P_GridOk P_Gen P_Balancer
  Spec_Balancer P_Trace P_Realise T_Balancer P_Lossless T_Lossless Spec_Edge.
Import ListNotations.
Local Open Scope string_scope.
Open Scope Z_scope.

Lemma both_all_of c s : both c s = all_of c s.
Proof. destruct s as [[x|] [y|]]; cbn; try reflexivity. apply andb_false_r. Qed.
Lemma recirculate_belts c f (l : network) : recirculate c (flat_map (fun n => side_list (f n)) l) = belts_of c (map f l).
Proof.
  unfold recirculate, belts_of. induction l as [|n l IH]; [reflexivity|]. cbn [flat_map map fold_right]. rewrite filter_app, app_length, Nat2Z.inj_add, IH.
  f_equal. destruct (f n) as [[x|] [y|]]; cbn; try destruct (x =? c); try destruct (y =? c); reflexivity.
Qed.

(** ** The clauses, as a condition on assignments *)
Definition edge_rule (g : grid) (net : counter) (a : assignment) (sd : splitter -> side) (c x back : Z) : Prop :=
  let h := height (geo g) in
  if back =? 0 then
    forall i nd k, nth_error net i = Some (nd, k) -> all_of c (sd nd) = true ->
      count a (map (fun y => node g (x, y) i) (range h)) = k /\
      forall y, 0 <= y < h -> evl a (node g (x, y) i) = true -> vi (view_of a (tile_at g (x, y))) RIGHT = true \/ vo (view_of a (tile_at g (x, y))) RIGHT = true
  else
    fold_left Z.add (map (fun ie => snd (snd ie)) (filter (fun ie => all_of c (sd (fst (snd ie)))) (indexed net))) 0 - back <=
    count a (flat_map (fun y => map (fun ie => node g (x, y) (fst ie)) (filter (fun ie => all_of c (sd (fst (snd ie)))) (indexed net))) (range h)).

Section Clauses.
  Variable E : card_encoder.
  Hypothesis HE : honest E.
  Variable g : grid.
  Hypothesis W : wf_grid g.
  Variable net : counter.
  Hypothesis Hex : gextras g = [("node", TSized OneHot (List.length net))].
  Variable sd : splitter -> side.
  Variables c x back : Z.
  Notation N := (grid_size g).
  Notation bound := (filter (fun ie => all_of c (sd (fst (snd ie)))) (indexed net)).

  Hypothesis Hx : 0 <= x < width (geo g).
  Lemma column_inside y : 0 <= y < height (geo g) -> inside (garea g) (x, y).
  Proof. intros Hy. split; [exact Hx|exact Hy]. Qed.
  Lemma column_in : in_grid g x 0 = true.
  Proof. destruct W as ((_ & Wh) & _). unfold in_grid. rewrite !andb_true_iff, ?Z.leb_le, ?Z.ltb_lt. lia. Qed.
  Lemma size_nonneg : 0 <= N.
  Proof. destruct W as ((Ww & Wh) & Ht & _). unfold grid_size. pose proof (tile_size_pos g). assert (0 <= width (geo g) * height (geo g) * tile_size g) by (repeat apply Z.mul_nonneg_nonneg; lia). lia. Qed.
  Lemma bound_in ie : In ie bound -> nth_error net (fst ie) = Some (snd ie) /\ all_of c (sd (fst (snd ie))) = true.
  Proof. intros H. apply filter_In in H. destruct H as [H1 H2]. destruct ie as [i e]. apply indexed_in in H1. auto. Qed.
  Lemma node_lit ie y : In ie bound -> 0 <= y < height (geo g) -> lit_ok N (node g (x, y) (fst ie)).
  Proof.
    intros Hi Hy. apply (node_ok g W (List.length net) Hex); [apply column_inside; assumption|]. apply nth_error_Some. destruct (bound_in ie Hi) as [-> _]. discriminate.
  Qed.

  Lemma edge_clauses_ok : gen_ok N (edge_splitters E g x bound back) (fun a => edge_rule g net a sd c x back).
  Proof.
    unfold edge_splitters, edge_rule. destruct (Z.eqb_spec back 0) as [E0|E0].
    - assert (X : gen_ok N (seq_gen (flat_map (fun ie =>
        [ library_equals E (map (fun y => node g (x, y) (fst ie)) (range (height (geo g)))) (snd (snd ie));
          pure (Some (flat_map (fun y => let t := tile_at g (x, y) in
            implies [node g (x, y) (fst ie)] [[input_dir t RIGHT; output_dir t RIGHT]]) (range (height (geo g))))) ]) bound))
        (fun a => forall ie, In ie bound -> count a (map (fun y => node g (x, y) (fst ie)) (range (height (geo g)))) = snd (snd ie) /\
          forall y, 0 <= y < height (geo g) -> evl a (node g (x, y) (fst ie)) = true -> vi (view_of a (tile_at g (x, y))) RIGHT = true \/ vo (view_of a (tile_at g (x, y))) RIGHT = true)).
      { pose proof (fun ie y => node_lit ie y) as NL. revert NL. generalize bound. induction l as [|ie l IH]; intros NL.
        - cbn [flat_map]. eapply gen_ok_ext; [|apply gen_ok_nil]. intros a. split; [intros _ ie []|auto].
        - cbn [flat_map]. eapply gen_ok_ext; [|apply gen_ok_app; [|apply IH; intros ie' y Hi Hy; apply NL; [right; exact Hi|exact Hy]]].
          2:{ apply gen_ok_cons.
            - apply gen_ok_equals; [exact HE|apply size_nonneg|]. apply Forall_forall. intros l' Hl. apply in_map_iff in Hl. destruct Hl as (y & <- & Hy). apply range_in in Hy. apply NL; [left; reflexivity|exact Hy].
            - apply gen_ok_cons; [|apply gen_ok_nil]. apply gen_ok_pure. intros cs Ec. apply Some_inj in Ec. subst cs. apply Forall_flat_map. apply Forall_forall. intros y Hy. apply range_in in Hy. cbv zeta.
              pose proof (tile_at_lits g (x, y) W (column_inside y Hy)) as K.
              apply implies_ok.
              + apply Forall_cons; [|apply Forall_nil]. apply NL; [left; reflexivity|exact Hy].
              + apply cnf_ok_cons; [|constructor]. apply Forall_cons; [apply (tl_i _ _ K)|]. apply Forall_cons; [apply (tl_o _ _ K)|apply Forall_nil]. }
          intros a. cbv beta.
          assert (Q : sat a (flat_map (fun y => let t := tile_at g (x, y) in implies [node g (x, y) (fst ie)] [[input_dir t RIGHT; output_dir t RIGHT]]) (range (height (geo g)))) = true <->
            forall y, 0 <= y < height (geo g) -> evl a (node g (x, y) (fst ie)) = true -> vi (view_of a (tile_at g (x, y))) RIGHT = true \/ vo (view_of a (tile_at g (x, y))) RIGHT = true).
          { rewrite sat_flat_map. split.
            - intros H y Hy Hn. specialize (H y (proj2 (range_in _ _) Hy)). cbv zeta in H. pose proof (proj1 (NL ie y (or_introl eq_refl) Hy)) as Nz.
              apply (proj1 (sat_implies1 _ _ _ Nz) H) in Hn. rewrite sat_one, satc_cons_iff, satc_one in Hn. exact Hn.
            - intros H y Hy. apply range_in in Hy. cbv zeta. pose proof (proj1 (NL ie y (or_introl eq_refl) Hy)) as Nz. apply (proj2 (sat_implies1 _ _ _ Nz)).
              intros Hn. rewrite sat_one, satc_cons_iff, satc_one. apply H; assumption. }
          rewrite Q. split.
          + intros [[H1 [H2 _]] H3] ie' [<-|Hi]; [split; assumption|apply H3; exact Hi].
          + intros H. split; [split; [apply H; left; reflexivity|split; [apply H; left; reflexivity|exact Logic.I]]|]. intros ie' Hi. apply H. right. exact Hi. }
      assert (Y : forall a, (forall ie, In ie bound -> count a (map (fun y => node g (x, y) (fst ie)) (range (height (geo g)))) = snd (snd ie) /\
          forall y, 0 <= y < height (geo g) -> evl a (node g (x, y) (fst ie)) = true -> vi (view_of a (tile_at g (x, y))) RIGHT = true \/ vo (view_of a (tile_at g (x, y))) RIGHT = true) <->
        (forall i nd k, nth_error net i = Some (nd, k) -> all_of c (sd nd) = true ->
          count a (map (fun y => node g (x, y) i) (range (height (geo g)))) = k /\
          forall y, 0 <= y < height (geo g) -> evl a (node g (x, y) i) = true -> vi (view_of a (tile_at g (x, y))) RIGHT = true \/ vo (view_of a (tile_at g (x, y))) RIGHT = true)).
      { intros a. split.
        - intros H i nd k Hi Ha. apply (H (i, (nd, k))). apply filter_In. split; [apply indexed_in; exact Hi|exact Ha].
        - intros H ie Hi. destruct (bound_in ie Hi) as [H1 H2]. destruct ie as [i [nd k]]. apply (H i nd k); assumption. }
      destruct bound as [|ie l] eqn:Eb.
      + eapply gen_ok_ext; [exact Y|]. eapply gen_ok_ext; [|apply gen_ok_pure; intros cs Ec; apply Some_inj in Ec; subst; constructor].
        intros a. cbv beta. split; [intros _ ie []|reflexivity].
      + rewrite <- Eb in *. rewrite column_in. eapply gen_ok_ext; [exact Y|]. exact X.
    - set (least := fold_left Z.add _ 0 - back). destruct (Z.ltb_spec 0 least) as [Hl|Hl].
      + rewrite column_in. apply gen_ok_atleast; [exact HE|apply size_nonneg|]. apply Forall_flat_map. apply Forall_forall. intros y Hy. apply range_in in Hy.
        apply Forall_forall. intros l Hl'. apply in_map_iff in Hl'. destruct Hl' as (ie & <- & Hi). apply node_lit; assumption.
      + eapply gen_ok_ext; [|apply gen_ok_pure; intros cs Ec; apply Some_inj in Ec; subst; constructor].
        intros a. cbv beta. split; [intros _|reflexivity]. match goal with |- _ <= count ?a ?l => pose proof (count_nonneg a l) end. lia.
  Qed.
End Clauses.

(** ** The placement read off a solution *)
Section Heads.
  Variable g : grid.
  Hypothesis W : wf_grid g.
  Hypothesis CX : wrap_x (geo g) = false.
  Hypothesis CY : wrap_y (geo g) = false.
  Variable net : counter.
  Variables ic n oc m : Z.
  Variable a : assignment.
  Hypothesis B : balancer_rules g net ic n oc m a.
  Variable T : layout.
  Notation HS := (hs g net a T).

  Lemma one_type p i j : inside (garea g) p -> (i < List.length net)%nat -> (j < List.length net)%nat -> evl a (node g p i) = true -> evl a (node g p j) = true -> i = j.
  Proof.
    intros Hp Hi Hj Ei Ej. apply (count_one_unique a (node g p) (seq 0 (List.length net)) i j); auto.
    - apply seq_NoDup.
    - pose proof (br_one _ _ _ _ _ _ _ B p Hp) as H1. unfold one_rule, nodes in H1. rewrite H1. destruct (vh (view_of a (tile_at g p))); lia.
    - apply in_seq. lia.
    - apply in_seq. lia.
  Qed.
  Lemma hs_types : Forall2 (fun s i => inside (garea g) (fst s) /\ evl a (node g (fst s) i) = true) HS (types net).
  Proof.
    assert (X : forall l s, (forall i nd c, nth_error l i = Some (nd, c) ->
        List.length (heads g a T (s + i)) = Z.to_nat c /\ forall x, In x (heads g a T (s + i)) -> inside (garea g) (fst x) /\ evl a (node g (fst x) (s + i)) = true) ->
      Forall2 (fun s i => inside (garea g) (fst s) /\ evl a (node g (fst s) i) = true) (flat_map (fun ie => heads g a T (fst ie)) (combine (seq s (List.length l)) l)) (types_from s l)).
    { induction l as [|[nd c] l IH]; intros s H; [constructor|]. cbn [List.length seq combine flat_map types_from fst snd].
      destruct (H 0%nat nd c eq_refl) as [H1 H2]. rewrite Nat.add_0_r in H1, H2. apply Forall2_app.
      - rewrite <- H1. apply Forall2_repeat. exact H2.
      - apply IH. intros i nd' c' Hi. specialize (H (S i) nd' c' Hi). rewrite Nat.add_succ_r in H. exact H. }
    apply X. cbn [Nat.add]. intros i nd c Hi. split.
    - pose proof (br_counts _ _ _ _ _ _ _ B i nd c Hi) as H. rewrite count_filter in H. cbv beta in H. unfold heads. rewrite map_length. rewrite <- H. symmetry. apply Nat2Z.id.
    - intros x Hx. unfold heads in Hx. apply in_map_iff in Hx. destruct Hx as (p & <- & Hp). apply filter_In in Hp. destruct Hp as [Hp Hn]. apply CL in Hp. auto.
  Qed.
  Lemma hs_placed P : pl_splitters P = HS -> placed_nodes g net P a.
  Proof.
    intros E p i Hp Hi. rewrite E. split.
    - intros Hn. destruct (nth_error net i) as [e|] eqn:En; [|apply nth_error_None in En; lia].
      assert (I : In (p, mate g T p) HS).
      { unfold hs. apply in_flat_map. exists (i, e). split; [apply indexed_in; exact En|]. cbn [fst]. unfold heads. apply in_map_iff. exists p. split; [reflexivity|].
        apply filter_In. split; [apply CL; exact Hp|exact Hn]. }
      apply In_nth_error in I. destruct I as [j Hj]. exists j, (p, mate g T p). split; [exact Hj|]. split; [reflexivity|].
      destruct (Forall2_nth_l _ _ _ hs_types j _ Hj) as (i' & Ei' & _ & Hn'). cbn [fst] in Hn'. rewrite Ei'. f_equal.
      apply (one_type p i' i Hp); auto. destruct (types_nth net j i' Ei') as (nd & k & _ & X). apply nth_error_Some. congruence.
    - intros (j & s & Hj & <- & Ht). apply (Forall2_nth _ _ _ hs_types j s i Hj Ht).
  Qed.
End Heads.

Lemma NoDup_map_finer {X Y Z'} (f : X -> Y) (h : X -> Z') l : (forall u v, In u l -> In v l -> h u = h v -> f u = f v) -> NoDup (map f l) -> NoDup (map h l).
Proof.
  induction l as [|x l IH]; intros H N; cbn [map]; constructor.
  - inversion N as [|? ? N1 N2]; subst. intros I. apply in_map_iff in I. destruct I as (y & Ey & Hy). apply N1. apply in_map_iff. exists y. split; [|exact Hy].
    apply H; [right; exact Hy|left; reflexivity|exact Ey].
  - inversion N; subst. apply IH; [|assumption]. intros u v Hu Hv. apply H; right; assumption.
Qed.
Lemma flat_map_prod {X Y Z'} (F : X -> Y -> Z') l k : flat_map (fun x => map (F x) k) l = map (fun xy => F (fst xy) (snd xy)) (list_prod l k).
Proof. induction l as [|x l IH]; [reflexivity|]. cbn [flat_map list_prod]. rewrite map_app, map_map, IH. reflexivity. Qed.
Lemma NoDup_app_intro {X} (l k : list X) : NoDup l -> NoDup k -> (forall x, In x l -> In x k -> False) -> NoDup (l ++ k).
Proof.
  intros Hl Hk H. induction Hl as [|x l Hx _ IH]; [exact Hk|]. cbn [app]. constructor.
  - rewrite in_app_iff. intros [Hi|Hi]; [contradiction|]. apply (H x (or_introl eq_refl) Hi).
  - apply IH. intros y Hy. apply H. right. exact Hy.
Qed.
Lemma NoDup_prod {X Y} (l : list X) (k : list Y) : NoDup l -> NoDup k -> NoDup (list_prod l k).
Proof.
  intros Hl Hk. induction Hl as [|x l Hx _ IH]; [constructor|]. cbn [list_prod]. apply NoDup_app_intro; [apply NoDup_map_inj; [intros ? ? [=]; assumption|exact Hk]|exact IH|].
  intros [u v] H1 H2. apply in_map_iff in H1. destruct H1 as (z & [= <- <-] & _). apply in_prod_iff in H2. apply Hx. apply H2.
Qed.
Lemma bound_total (q : splitter -> bool) net : (forall nd k, In (nd, k) net -> 0 <= k) -> forall s,
  fold_left Z.add (map (fun ie : nat * (splitter * Z) => snd (snd ie)) (filter (fun ie => q (fst (snd ie))) (combine (seq s (List.length net)) net))) 0 =
  Z.of_nat (List.length (filter q (elements net))).
Proof.
  intros H. assert (X : forall s z, fold_left Z.add (map (fun ie : nat * (splitter * Z) => snd (snd ie)) (filter (fun ie => q (fst (snd ie))) (combine (seq s (List.length net)) net))) z =
    z + Z.of_nat (List.length (filter q (elements net)))).
  { induction net as [|[nd k] net IH]; intros s z; cbn [List.length seq combine filter map fold_left elements flat_map fst snd]; [cbn; lia|].
    assert (IH' := IH (fun nd' k' H' => H nd' k' (or_intror H'))). specialize (H nd k (or_introl eq_refl)). rewrite filter_app, app_length. destruct (q nd) eqn:Eq.
    - cbn [map fold_left]. rewrite IH'. rewrite (filter_all q (repeat nd (Z.to_nat k))) by (intros y Hy; apply repeat_spec in Hy; subst; exact Eq). rewrite repeat_length. unfold elements. cbn [fst snd]. lia.
    - rewrite IH'. rewrite (filter_none q (repeat nd (Z.to_nat k))) by (intros y Hy; apply repeat_spec in Hy; subst; exact Eq). unfold elements. cbn [List.length]. lia. }
  intros s. rewrite X. lia.
Qed.

(** ** The condition on assignments is the condition on layouts *)
Section Bridge.
  Variable g : grid.
  Hypothesis W : wf_grid g.
  Hypothesis CX : wrap_x (geo g) = false.
  Hypothesis CY : wrap_y (geo g) = false.
  Variable net : counter.
  Hypothesis Kn : forall nd k, In (nd, k) net -> 0 <= k.
  Variables ic n oc m : Z.
  Variable a : assignment.
  Hypothesis B : balancer_rules g net ic n oc m a.
  Hypothesis So : solves g (EBool true) a.
  Variable T : layout.
  Hypothesis R : reads g a T.
  Variable P : placement.
  Notation A := (garea g).
  Notation V p := (view_of a (tile_at g p)).
  Hypothesis Sl : List.length (pl_splitters P) = List.length (elements net).
  Hypothesis Sd : NoDup (map fst (pl_splitters P)).
  Hypothesis Sa : forall s, In s (pl_splitters P) -> is_splitter_at A T s.
  Hypothesis Pn : placed_nodes g net P a.
  Variable sd : splitter -> side.
  Hypothesis Hsd : sd = fst \/ sd = snd.
  Variables c x back : Z.
  Hypothesis Hx : 0 <= x < width (geo g).

  Lemma listed j s : nth_error (pl_splitters P) j = Some s -> exists i nd k, nth_error (types net) j = Some i /\ nth_error (elements net) j = Some nd /\
    nth_error net i = Some (nd, k) /\ inside A (fst s) /\ evl a (node g (fst s) i) = true.
  Proof.
    intros Hj. destruct (nth_error (types net) j) as [i|] eqn:Ei.
    - destruct (types_nth net j i Ei) as (nd & k & E1 & E2). exists i, nd, k. assert (Is : inside A (fst s)) by (apply (Sa s); eapply nth_error_In; exact Hj).
      repeat (split; [assumption || reflexivity|]). apply Pn; [exact Is|apply nth_error_Some; congruence|]. eauto.
    - exfalso. apply nth_error_None in Ei. rewrite types_length, <- Sl in Ei. apply nth_error_None in Ei. congruence.
  Qed.
  Lemma node_at p i nd k : inside A p -> nth_error net i = Some (nd, k) -> evl a (node g p i) = true ->
    exists j s, nth_error (pl_splitters P) j = Some s /\ fst s = p /\ nth_error (types net) j = Some i /\ nth_error (elements net) j = Some nd.
  Proof.
    intros Hp Hi Hn. destruct (proj1 (Pn p i Hp ltac:(apply nth_error_Some; congruence)) Hn) as (j & s & H1 & H2 & H3). exists j, s. repeat (split; [assumption|]).
    destruct (types_nth net j i H3) as (nd' & k' & E1 & E2). congruence.
  Qed.
  Lemma faces p d d' : inside A p -> T p = Splitter d true -> vi (V p) d' = true \/ vo (V p) d' = true -> d' = d.
  Proof.
    intros Hp Tp H. pose proof (Sh g W a So T R p Hp) as (S & _). rewrite Tp in S. destruct S as (_ & _ & S1 & S2 & _). destruct H; auto.
  Qed.
  Lemma edge_used p d i nd k : inside A p -> nth_error net i = Some (nd, k) -> evl a (node g p i) = true -> all_of c (sd nd) = true -> T p = Splitter d true ->
    vi (V p) d = true \/ vo (V p) d = true.
  Proof.
    intros Hp Hi Hn Ha Tp. destruct (node_head g W net ic n oc m a B So T R i nd k p Hi Hp Hn) as (_ & _ & d' & T1 & _ & _ & (p10 & p01 & p11 & _ & _ & _ & S1 & S2)).
    cbn [fst] in *. rewrite Tp in T1. injection T1 as <-. destruct Hsd as [-> | ->].
    - left. destruct (fst nd) as [[u|] [v|]]; try discriminate. apply S1.
    - right. destruct (snd nd) as [[u|] [v|]]; try discriminate. apply S2.
  Qed.
  Lemma column_nodup : NoDup (range (height (geo g))).
  Proof. unfold range. apply NoDup_map_inj; [intros; lia|apply seq_NoDup]. Qed.

  Lemma edge_iff : edge_rule g net a sd c x back <-> at_edge T P (elements net) sd c x back.
  Proof.
    unfold edge_rule, at_edge. destruct (Z.eqb_spec back 0) as [E0|E0].
    - assert (Col : forall i, count a (map (fun y => node g (x, y) i) (range (height (geo g)))) =
        Z.of_nat (List.length (filter (fun p => evl a (node g p i)) (map (fun y => (x, y)) (range (height (geo g))))))).
      { intros i. rewrite <- count_filter, map_map. reflexivity. }
      split.
      + intros H j nd s Hnd Hs Ha. destruct (listed j s Hs) as (i & nd' & k & Ei & End & Ek & Is & Hn). assert (nd' = nd) by congruence. subst nd'.
        destruct (H i nd k Ek Ha) as [H1 H2]. pose proof (br_counts _ _ _ _ _ _ _ B i nd k Ek) as H3. rewrite Col in H1. rewrite count_filter in H3. cbv beta in H3.
        assert (Inc : incl (filter (fun p => evl a (node g p i)) (cells (width (geo g)) (height (geo g)))) (filter (fun p => evl a (node g p i)) (map (fun y => (x, y)) (range (height (geo g)))))).
        { apply NoDup_length_incl.
          - apply NoDup_filter. apply NoDup_map_inj; [intros ? ? [=]; assumption|apply column_nodup].
          - lia.
          - intros p Hp. apply filter_In in Hp. destruct Hp as [Hp Ep]. apply filter_In. split; [|exact Ep]. apply in_map_iff in Hp. destruct Hp as (y & <- & Hy).
            apply CL. apply column_inside; [exact Hx|]. apply range_in. exact Hy. }
        assert (I : In (fst s) (filter (fun p => evl a (node g p i)) (cells (width (geo g)) (height (geo g))))) by (apply filter_In; split; [apply CL; exact Is|exact Hn]).
        apply Inc in I. apply filter_In in I. destruct I as [I _]. apply in_map_iff in I. destruct I as (y & Ey & Hy). apply range_in in Hy. rewrite <- Ey. cbn [fst]. split; [reflexivity|].
        destruct (Sa s (nth_error_In _ _ Hs)) as (_ & _ & d & T1 & _). rewrite <- Ey in Is, Hn, T1. rewrite T1. f_equal. symmetry. apply (faces (x, y)); auto.
      + intros H i nd k Ek Ha. split.
        * rewrite Col. rewrite <- (br_counts _ _ _ _ _ _ _ B i nd k Ek). rewrite count_filter. f_equal. apply Permutation_length. apply NoDup_Permutation.
          -- apply NoDup_filter. apply NoDup_map_inj; [intros ? ? [=]; assumption|apply column_nodup].
          -- apply NoDup_filter. apply ND.
          -- intros p. rewrite !filter_In. split; intros [Hp Ep]; (split; [|exact Ep]).
             ++ apply in_map_iff in Hp. destruct Hp as (y & <- & Hy). apply CL. apply column_inside; [exact Hx|]. apply range_in. exact Hy.
             ++ apply CL in Hp. destruct (node_at p i nd k Hp Ek Ep) as (j & s & H1 & H2 & H3 & H4). destruct (H j nd s H4 H1 Ha) as [H5 _]. rewrite H2 in H5.
                apply in_map_iff. exists (snd p). split; [destruct p; cbn [fst snd] in *; congruence|]. apply range_in. apply Hp.
        * intros y Hy Hn. pose proof (column_inside g x Hx y Hy) as Hp. destruct (node_at (x, y) i nd k Hp Ek Hn) as (j & s & H1 & H2 & H3 & H4). destruct (H j nd s H4 H1 Ha) as [_ H5]. rewrite H2 in H5.
          apply (edge_used (x, y) RIGHT i nd k); auto.
    - pose proof (bound_total (fun nd => all_of c (sd nd)) net Kn 0) as Bt. fold (indexed net) in Bt. cbv beta in Bt. rewrite Bt.
      assert (X : count a (flat_map (fun y => map (fun ie => node g (x, y) (fst ie)) (filter (fun ie => all_of c (sd (fst (snd ie)))) (indexed net))) (range (height (geo g)))) =
        Z.of_nat (List.length (filter (fun sn : (pos * pos) * splitter => all_of c (sd (snd sn)) && (fst (fst (fst sn)) =? x)) (combine (pl_splitters P) (elements net))))).
      { set (bound := filter (fun ie => all_of c (sd (fst (snd ie)))) (indexed net)).
        replace (flat_map (fun y => map (fun ie => node g (x, y) (fst ie)) bound) (range (height (geo g))))
          with (map (fun yi : Z * nat => node g (x, fst yi) (snd yi)) (list_prod (range (height (geo g))) (map fst bound))).
        2:{ rewrite <- (flat_map_prod (fun y i => node g (x, y) i)). apply flat_map_ext. intros y. rewrite map_map. reflexivity. }
        set (L3 := combine (combine (pl_splitters P) (elements net)) (types net)).
        set (q := fun t : ((pos * pos) * splitter) * nat => all_of c (sd (snd (fst t))) && (fst (fst (fst (fst t))) =? x)).
        assert (L3nth : forall t, In t L3 <-> exists j, nth_error (pl_splitters P) j = Some (fst (fst t)) /\ nth_error (elements net) j = Some (snd (fst t)) /\ nth_error (types net) j = Some (snd t)).
        { intros [[s nd] i]. cbn [fst snd]. split.
          - intros H. apply In_nth_error in H. destruct H as [j Hj]. apply combine_nth_inv in Hj. destruct Hj as [H1 H2]. apply combine_nth_inv in H1. exists j. cbn [fst snd] in *. tauto.
          - intros (j & H1 & H2 & H3). eapply nth_error_In. apply (combine_nth_some _ _ j); [apply combine_nth_some; eassumption|exact H3]. }
        rewrite (count_listed a _ _ (map (fun t => (snd (fst (fst (fst t))), snd t)) (filter q L3))).
        - rewrite map_length. f_equal. unfold q. rewrite (filter_map_length fst (fun sn : (pos * pos) * splitter => all_of c (sd (snd sn)) && (fst (fst (fst sn)) =? x))).
          unfold L3. rewrite map_fst_combine; [reflexivity|]. rewrite combine_length, types_length. lia.
        - apply NoDup_prod; [apply column_nodup|]. unfold bound. apply NoDup_map_filter. unfold indexed. rewrite map_fst_combine by apply seq_length. apply seq_NoDup.
        - apply (NoDup_map_finer (fun t => fst (fst (fst t)))).
          + intros u v Hu Hv Euv. apply filter_In in Hu, Hv. destruct Hu as [_ Hu], Hv as [_ Hv]. unfold q in Hu, Hv. apply andb_true_iff in Hu, Hv. destruct Hu as [_ Hu], Hv as [_ Hv].
            apply Z.eqb_eq in Hu, Hv. injection Euv as Ey _. destruct u as [[[[u1 u2] u3] u4] u5], v as [[[[v1 v2] v3] v4] v5]. cbn [fst snd] in *. congruence.
          + apply NoDup_map_filter. unfold L3. rewrite <- (map_map fst (fun sn => fst (fst sn))). rewrite map_fst_combine by (rewrite combine_length, types_length; lia).
            rewrite <- (map_map fst fst). rewrite map_fst_combine by exact Sl. exact Sd.
        - intros [y i]. rewrite in_prod_iff, in_map_iff. cbn [fst snd]. split.
          + intros (t & Et & Ht). injection Et as <- <-. apply filter_In in Ht. destruct Ht as [Ht Hq]. apply L3nth in Ht. destruct Ht as (j & H1 & H2 & H3).
            unfold q in Hq. apply andb_true_iff in Hq. destruct Hq as [Hq1 Hq2]. apply Z.eqb_eq in Hq2.
            destruct (listed j _ H1) as (i & nd & k & Ei & End & Ek & Is & Hn). rewrite Ei in H3. apply Some_inj in H3. pose proof (eq_trans (eq_sym End) H2) as H4. apply Some_inj in H4. subst i nd.
            assert (Ep : fst (fst (fst t)) = (x, snd (fst (fst (fst t))))) by (rewrite <- Hq2; apply surjective_pairing).
            rewrite <- Ep. split; [split|exact Hn].
            * apply range_in. apply Is.
            * apply in_map_iff. exists (snd t, (snd (fst t), k)). split; [reflexivity|]. unfold bound. apply filter_In. split; [apply indexed_in; exact Ek|exact Hq1].
          + intros [[Hy Hi] Hn]. apply range_in in Hy. apply in_map_iff in Hi. destruct Hi as ([i' [nd k]] & <- & Hi). cbn [fst] in *. unfold bound in Hi. apply filter_In in Hi. destruct Hi as [Hi Ha].
            apply indexed_in in Hi. cbn [fst snd] in Ha. pose proof (column_inside g x Hx y Hy) as Hp. destruct (node_at (x, y) i' nd k Hp Hi Hn) as (j & s & H1 & H2 & H3 & H4).
            destruct s as [s1 s2]. cbn [fst] in H2. subst s1. exists (((x, y), s2, nd), i'). cbn [fst snd]. split; [reflexivity|]. apply filter_In. split; [apply L3nth; exists j; auto|]. unfold q. cbn [fst snd]. rewrite Ha, Z.eqb_refl. reflexivity. }
      rewrite X. reflexivity.
  Qed.
End Bridge.
