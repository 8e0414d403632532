(** Where the network-free balancer has its ends. *)
From Coq Require Import String ZArith List Bool Lia.
From Verif Require Import Spec_Cnf Spec_Tile Spec_Layout M_Json M_Tile M_Util M_Card M_Network M_Template M_Grid M_Oracle M_Balancer M_Optimise M_NetFree Spec_Flow
  P_Cnf P_Util P_Card P_Layout P_List P_Template P_Grid P_GridSound T_Grid P_GridOk P_Gen P_Balancer P_Ends.
Import ListNotations.
Open Scope Z_scope.

(** [cnt] consecutive tiles from number [di] on pass items to the right, the
    others pass nothing. *)
Definition through_rule (ts : list tvars) (cnt : Z) (a : assignment) (di : nat) : Prop :=
  forall i t, nth_error ts i = Some t ->
    (in_block di cnt i -> evl a (input_dir t RIGHT) = true /\ evl a (output_dir t RIGHT) = true) /\
    (~ in_block di cnt i -> forall e, evl a (input_dir t e) = false /\ evl a (output_dir t e) = false).

Section End.
  Variables (ts : list tvars) (cnt top : Z).
  Hypothesis Ht : 0 <= top.
  Hypothesis Hts : Forall (tile_lits top) ts.

  Lemma end_consequences_sat a di : sat a (end_consequences ts cnt di) = true <-> through_rule ts cnt a di.
  Proof.
    unfold end_consequences. rewrite sat_flat_map. unfold through_rule. rewrite Forall_forall in Hts.
    assert (X : forall i t, In t ts ->
      (sat a (if Nat.leb di i && (Z.of_nat i <? Z.of_nat di + cnt) then [[input_dir t RIGHT]; [output_dir t RIGHT]] else set_all_false (all_direction t)) = true <->
       (in_block di cnt i -> evl a (input_dir t RIGHT) = true /\ evl a (output_dir t RIGHT) = true) /\
       (~ in_block di cnt i -> forall e, evl a (input_dir t e) = false /\ evl a (output_dir t e) = false))).
    { intros i t Hin. pose proof (Hts t Hin) as O.
      assert (Q : (Nat.leb di i && (Z.of_nat i <? Z.of_nat di + cnt) = true <-> in_block di cnt i)).
      { rewrite andb_true_iff, Nat.leb_le, Z.ltb_lt. reflexivity. }
      destruct (Nat.leb di i && (Z.of_nat i <? Z.of_nat di + cnt)).
      - rewrite !sat_cons_iff, sat_nil, !satc_one. pose proof (proj1 Q eq_refl). tauto.
      - assert (N : ~ in_block di cnt i) by (intros C; apply Q in C; discriminate).
        rewrite sat_all_false by (unfold all_direction; apply Forall_app; split; apply nonzero_map; intros e; [pose proof (tl_i _ _ O e)|pose proof (tl_o _ _ O e)]; unfold lit_ok in *; lia).
        unfold all_direction, inputs, outputs. split.
        * intros H. split; [tauto|]. intros _ e. split; apply H; apply in_or_app; [left|right]; apply in_map, directions_all.
        * intros [_ H] l Hl. specialize (H N). apply in_app_or in Hl. destruct Hl as [Hl|Hl]; apply in_map_iff in Hl; destruct Hl as (e & <- & _); apply H. }
    split.
    - intros H i t Hi. apply X; [eapply nth_error_In; eauto|]. specialize (H (i, t) (proj2 (indexed_in ts i t) Hi)). exact H.
    - intros H [i t] Hin. apply indexed_in in Hin. pose proof (H i t Hin) as Hi. apply X in Hi; [|eapply nth_error_In; eauto]. exact Hi.
  Qed.

  Lemma free_end_sat cs offs top' a : setup_end ts cnt top = (cs, offs, top') ->
    offs = fresh top (Z.to_nat (len ts - cnt + 1)) /\ top' = top + Z.of_nat (Z.to_nat (len ts - cnt + 1)) /\
    (sat a cs = true <-> exists di, only_at a offs di /\ through_rule ts cnt a di).
  Proof.
    unfold setup_end. set (offsets := fresh top (Z.to_nat (len ts - cnt + 1))).
    assert (Lo : List.length offsets = Z.to_nat (len ts - cnt + 1)) by apply fresh_length.
    intros E. assert (E1 : offs = offsets) by congruence. assert (E3 : top' = top + len offsets) by congruence.
    assert (E2 : cs = (flat_map (fun dl => implies [snd dl] (end_consequences ts cnt (fst dl))) (indexed offsets) ++ quadratic_one offsets)%list) by congruence.
    subst offs top' cs. split; [reflexivity|]. split; [unfold len at 1; rewrite Lo; lia|].
    assert (Onz : Forall nonzero offsets) by (apply Forall_forall; intros v Hv; apply fresh_In in Hv; unfold nonzero; lia).
    rewrite sat_app_iff, quadratic_one_sat, only_at_count, sat_flat_map by exact Onz. split.
    - intros [H (di & Hd)]. exists di. split; [exact Hd|]. destruct (nth_error offsets di) as [l|] eqn:El; [|apply nth_error_None in El; destruct Hd; lia].
      specialize (H (di, l) (proj2 (indexed_in _ _ _) El)). cbn [fst snd] in H. rewrite sat_implies1, end_consequences_sat in H.
      + apply H. apply (proj2 Hd di l El). reflexivity.
      + rewrite Forall_forall in Onz. apply Onz. eapply nth_error_In; eauto.
    - intros (di & Hd & H). split; [|eauto]. intros [i l] Hin. apply indexed_in in Hin. cbn [fst snd].
      rewrite sat_implies1, end_consequences_sat by (rewrite Forall_forall in Onz; apply Onz; eapply nth_error_In; eauto).
      intros El. apply (proj2 Hd i l Hin) in El. subst i. exact H.
  Qed.
  Lemma free_end_ok cs offs top' : setup_end ts cnt top = (cs, offs, top') -> cnf_ok top' cs.
  Proof.
    intros E. destruct (free_end_sat cs offs top' (fun _ => true) E) as (Eo & Et & _). unfold setup_end in E. rewrite <- Eo in E.
    assert (E2 : cs = (flat_map (fun dl => implies [snd dl] (end_consequences ts cnt (fst dl))) (indexed offs) ++ quadratic_one offs)%list) by congruence.
    rewrite E2. clear E E2. assert (Oo : Forall (lit_ok top') offs) by (rewrite Eo; apply fresh_ok; lia).
    assert (Ot : forall t, In t ts -> tile_lits top t) by (apply Forall_forall; exact Hts).
    assert (Up : forall l, lit_ok top l -> lit_ok top' l) by (intros l; apply lit_ok_mono; lia).
    apply cnf_ok_app; [|apply quadratic_one_ok; exact Oo]. apply cnf_ok_flat_map. intros [i l] Hin. apply indexed_in in Hin. apply nth_error_In in Hin. cbn [fst snd].
    apply implies_ok; [constructor; [rewrite Forall_forall in Oo; apply Oo; exact Hin|constructor]|]. unfold end_consequences. apply cnf_ok_flat_map.
    intros [j t] Hj. apply indexed_in in Hj. apply nth_error_In in Hj. pose proof (Ot t Hj) as O. cbn [fst snd]. destruct (_ && _).
    - apply cnf_ok_cons; [constructor; [apply Up, O|constructor]|]. apply cnf_ok_cons; [constructor; [apply Up, O|constructor]|constructor].
    - apply set_all_false_ok. unfold all_direction. apply Forall_app. split; apply Forall_dirs; intros e; apply Up, O.
  Qed.
End End.

Lemma through_rule_agree ts cnt a b top di : agree top a b -> Forall (tile_lits top) ts -> through_rule ts cnt a di -> through_rule ts cnt b di.
Proof.
  intros Ag Ok H i t Hi. rewrite Forall_forall in Ok. pose proof (Ok t (nth_error_In _ _ Hi)) as O. destruct (H i t Hi) as [H1 H2].
  assert (E1 : forall e, evl a (input_dir t e) = evl b (input_dir t e)) by (intros e; apply (evl_agree top); [exact Ag|apply O]).
  assert (E2 : forall e, evl a (output_dir t e) = evl b (output_dir t e)) by (intros e; apply (evl_agree top); [exact Ag|apply O]).
  split; [intros B; rewrite <- E1, <- E2; auto|]. intros N e. rewrite <- E1, <- E2. auto.
Qed.

Section Layout.
  Variable g : grid.
  Hypothesis W : wf_grid g.
  Variable a : assignment.
  Hypothesis S : solves_init g a.
  Variable T : layout.
  Hypothesis R : reads g a T.
  Notation V p := (view_of a (tile_at g p)).

  Lemma straight p : inside (garea g) p -> ~ is_splitter_tile (T p) ->
    (evl a (input_dir (tile_at g p) RIGHT) = true /\ evl a (output_dir (tile_at g p) RIGHT) = true <-> T p = Belt RIGHT RIGHT).
  Proof.
    intros Hp Ns. pose proof (Shw g W a S T R p Hp) as (K & _). change (evl a (input_dir (tile_at g p) RIGHT)) with (vi (V p) RIGHT). change (evl a (output_dir (tile_at g p) RIGHT)) with (vo (V p) RIGHT).
    destruct (T p) as [| |i o|f b|f h|f k|x y]; try contradiction.
    - destruct K as (_ & K1 & K2). split; [intros [H _]; rewrite K1 in H; discriminate|discriminate].
    - destruct K as (_ & K1 & K2 & _). rewrite K1, K2. split; [intros [<- <-]; reflexivity|intros [= -> ->]; auto].
    - split; [|discriminate]. intros [H1 H2]. destruct b; destruct K as (_ & K1 & K2); [rewrite K2 in H2; discriminate|rewrite K1 in H1; discriminate].
    - contradiction Ns. exact Logic.I.
  Qed.

  Variables (at_ : Z -> pos) (k cnt : Z).
  Hypothesis Hk : 0 < k.
  Hypothesis Hat : forall y, 0 <= y < k -> inside (garea g) (at_ y).
  Hypothesis Hsp : forall y, 0 <= y < k -> ~ is_splitter_tile (T (at_ y)).

  Lemma through_layout di : Z.of_nat di <= k - cnt -> (through_rule (edge g at_ k) cnt a di <-> straight_ends T at_ k cnt (Z.of_nat di)).
  Proof.
    intros Hdi. unfold through_rule, straight_ends.
    assert (B : forall y, (Z.of_nat di <=? y) && (y <? Z.of_nat di + cnt) = true <-> Z.of_nat di <= y < Z.of_nat di + cnt) by (intros y; rewrite andb_true_iff, Z.leb_le, Z.ltb_lt; reflexivity).
    split.
    - intros H. split; [lia|]. intros y Hy. destruct (H (Z.to_nat y) (tile_at g (at_ y))) as [H1 H2].
      { apply nth_edge. rewrite Z2Nat.id by lia. split; [lia|reflexivity]. }
      specialize (B y). destruct (_ && _).
      + apply straight; auto. apply H1. unfold in_block. pose proof (proj1 B eq_refl). lia.
      + apply (no_directions g W a S T R); auto. apply H2. unfold in_block. intros C. assert (false = true) by (apply B; lia). discriminate.
    - intros [_ H] i t Hi. apply nth_edge in Hi. destruct Hi as [Hi ->]. assert (Hy : 0 <= Z.of_nat i < k) by lia.
      specialize (H _ Hy). specialize (B (Z.of_nat i)). split.
      + intros Hb. unfold in_block in Hb. rewrite (proj2 B ltac:(lia)) in H. apply straight; auto.
      + intros Hb. unfold in_block in Hb. destruct (_ && _); [exfalso; pose proof (proj1 B eq_refl); lia|]. apply (no_directions g W a S T R); auto.
  Qed.
End Layout.

Section Two.
  Variable g : grid.
  Hypothesis W : wf_grid g.
  Variable a : assignment.
  Hypothesis S : solves_init g a.
  Variable T : layout.
  Hypothesis R : reads g a T.
  Notation h := (height (geo g)).
  Notation w := (width (geo g)).
  Variables n m : Z.
  Hypothesis Hn : 0 < n.
  Hypothesis Hm : 0 < m.
  Variable top : Z.
  Hypothesis Htop : grid_size g <= top.
  Hypothesis NS : forall y, 0 <= y < h -> ~ is_splitter_tile (T (0, y)) /\ ~ is_splitter_tile (T (w - 1, y)).

  Theorem free_ends (al : bool) cs top2 : setup_free_ends g n m al top = Some (cs, top2) ->
    ((exists b, agree top a b /\ sat b cs = true) <->
    exists i j, straight_ends T (fun y => (0, y)) h n i /\ straight_ends T (fun y => (w - 1, y)) h m j /\
      (al = true -> if m <=? n then i <= j <= i + n - m else j <= i <= j + m - n)).
  Proof.
    unfold setup_free_ends. change (column g 0) with (edge g (fun y => (0, y)) h). change (column g (w - 1)) with (edge g (fun y => (w - 1, y)) h).
    destruct (setup_end (edge g (fun y => (0, y)) h) n top) as [[cs1 starts] top1] eqn:E1.
    destruct (setup_end (edge g (fun y => (w - 1, y)) h) m top1) as [[cs2 ends] top2'] eqn:E2.
    intros E. assert (Ec : cs = (cs1 ++ cs2 ++ (if al then align_clauses n m starts ends else []))%list) by congruence. clear E.
    pose proof W as ((Ww & Wh) & Hts & _).
    assert (Hg : 0 <= grid_size g). { unfold grid_size. pose proof (tile_size_pos g). assert (0 <= w * h * tile_size g) by (repeat apply Z.mul_nonneg_nonneg; lia). lia. }
    assert (A1 : forall y, 0 <= y < h -> inside (garea g) (0, y)) by (intros y Hy; split; cbn; lia).
    assert (A2 : forall y, 0 <= y < h -> inside (garea g) (w - 1, y)) by (intros y Hy; split; cbn; lia).
    assert (Ok1 : forall t, grid_size g <= t -> Forall (tile_lits t) (edge g (fun y => (0, y)) h)) by (intros; apply edge_lits; auto).
    assert (Ok2 : forall t, grid_size g <= t -> Forall (tile_lits t) (edge g (fun y => (w - 1, y)) h)) by (intros; apply edge_lits; auto).
    pose proof (len_edge g (fun y => (0, y)) h ltac:(lia)) as L1. pose proof (len_edge g (fun y => (w - 1, y)) h ltac:(lia)) as L2.
    pose proof (fun b => free_end_sat (edge g (fun y => (0, y)) h) n top ltac:(lia) (Ok1 top Htop) cs1 starts top1 b E1) as F1. rewrite L1 in F1.
    destruct (F1 a) as (Es & Et1 & _).
    pose proof (fun b => free_end_sat (edge g (fun y => (w - 1, y)) h) m top1 ltac:(lia) (Ok2 top1 ltac:(lia)) cs2 ends top2' b E2) as F2. rewrite L2 in F2.
    destruct (F2 a) as (Ee & Et2 & _).
    assert (S1 : forall b, sat b cs1 = true <-> exists di, only_at b starts di /\ through_rule (edge g (fun y => (0, y)) h) n b di) by (intros b; apply F1).
    assert (S2 : forall b, sat b cs2 = true <-> exists di, only_at b ends di /\ through_rule (edge g (fun y => (w - 1, y)) h) m b di) by (intros b; apply F2).
    assert (Ns : Forall nonzero starts) by (rewrite Es; apply Forall_forall; intros v Hv; apply fresh_In in Hv; unfold nonzero; lia).
    assert (Nn : Forall nonzero ends) by (rewrite Ee; apply Forall_forall; intros v Hv; apply fresh_In in Hv; unfold nonzero; lia).
    assert (Len1 : List.length starts = Z.to_nat (h - n + 1)) by (rewrite Es; apply fresh_length).
    assert (Len2 : List.length ends = Z.to_nat (h - m + 1)) by (rewrite Ee; apply fresh_length).
    rewrite Ec. split.
    - intros (b & Ag & Sb). rewrite !sat_app_iff in Sb. destruct Sb as (B1 & B2 & B3). apply S1 in B1. apply S2 in B2.
      destruct B1 as (i & O1 & R1). destruct B2 as (j & O2 & R2).
      assert (Hi : Z.of_nat i <= h - n) by (destruct O1; lia). assert (Hj : Z.of_nat j <= h - m) by (destruct O2; lia).
      exists (Z.of_nat i), (Z.of_nat j). split; [|split].
      + apply (through_layout g W a S T R (fun y => (0, y)) h n A1 (fun y Hy => proj1 (NS y Hy)) i Hi). eapply through_rule_agree; [apply agree_sym; exact Ag|auto|exact R1].
      + apply (through_layout g W a S T R (fun y => (w - 1, y)) h m A2 (fun y Hy => proj2 (NS y Hy)) j Hj). eapply through_rule_agree; [apply agree_sym; exact Ag|auto|exact R2].
      + intros ->. exact (proj1 (align_only n m starts ends b i j Ns Nn O1 O2) B3).
    - intros (i & j & P1 & P2 & Ha). destruct P1 as [Hi P1']. destruct P2 as [Hj P2'].
      set (b := select a top [top + 1 + i; top1 + 1 + j]). assert (Ag : agree top a b) by apply select_agree. exists b. split; [exact Ag|].
      assert (O1 : only_at b starts (Z.to_nat i)).
      { rewrite Es. apply select_only; [lia|lia|left; lia|]. intros x [<-|[<-|[]]] Hx; lia. }
      assert (O2 : only_at b ends (Z.to_nat j)).
      { rewrite Ee. apply select_only; [lia|lia|right; left; lia|]. intros x [<-|[<-|[]]] Hx; lia. }
      rewrite !sat_app_iff. split; [|split].
      + apply S1. exists (Z.to_nat i). split; [exact O1|]. eapply through_rule_agree; [exact Ag|auto|].
        apply (through_layout g W a S T R (fun y => (0, y)) h n A1 (fun y Hy => proj1 (NS y Hy)) (Z.to_nat i)); [lia|]. rewrite Z2Nat.id by lia. split; assumption.
      + apply S2. exists (Z.to_nat j). split; [exact O2|]. eapply through_rule_agree; [exact Ag|auto|].
        apply (through_layout g W a S T R (fun y => (w - 1, y)) h m A2 (fun y Hy => proj2 (NS y Hy)) (Z.to_nat j)); [lia|]. rewrite Z2Nat.id by lia. split; assumption.
      + destruct al; [|reflexivity]. rewrite (align_only n m starts ends b (Z.to_nat i) (Z.to_nat j) Ns Nn O1 O2). rewrite !Z2Nat.id by lia. exact (Ha eq_refl).
  Qed.
End Two.
