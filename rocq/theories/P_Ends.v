(** What setup_balancer_input, setup_balancer_output and their combinations say. *)
From Coq Require Import String ZArith List Bool Lia.
From Verif Require Import Spec_Cnf Spec_Tile Spec_Layout M_Json M_Tile M_Util M_Card M_Network M_Template M_Grid M_Oracle M_Balancer
  P_Cnf P_Util P_Card P_Tile P_Layout P_List P_Template P_Walk P_Grid P_GridSound P_GridComplete P_Transport T_Grid P_GridOk P_Gen P_Balancer.
Import ListNotations.
Open Scope Z_scope.

Definition end_lit (out : bool) (t : tvars) (d : dir) : lit := if out then output_dir t d else input_dir t d.

(** The tiles [di .. di+count-1] are belts in use in direction [d], and the
    others are empty or not in use. *)
Definition in_block (di : nat) (count : Z) (i : nat) : Prop := (di <= i)%nat /\ Z.of_nat i < Z.of_nat di + count.
Definition block_rule (out re : bool) (ts : list tvars) (d : dir) (count : Z) (a : assignment) (di : nat) : Prop :=
  forall i t, nth_error ts i = Some t ->
    (in_block di count i -> evl a (end_lit out t d) = true /\ evl a (is_belt t) = true) /\
    (~ in_block di count i ->
       if re then forall e, evl a (input_dir t e) = false /\ evl a (output_dir t e) = false
       else evl a (end_lit out t d) = false /\ (out = false -> evl a (is_belt t) = true)).
Definition full_rule (out : bool) (ts : list tvars) (d : dir) (a : assignment) : Prop :=
  forall t, In t ts -> evl a (end_lit out t d) = true /\ (out = true -> evl a (is_belt t) = true).

Definition only_at (a : assignment) (ls : list lit) (di : nat) : Prop :=
  (di < List.length ls)%nat /\ forall i l, nth_error ls i = Some l -> (evl a l = true <-> i = di).
Lemma only_at_count a ls : count a ls = 1 <-> exists di, only_at a ls di.
Proof.
  induction ls as [|l ls IH].
  - unfold count. cbn. split; [lia|]. intros (di & H & _). cbn in H. lia.
  - rewrite count_cons. destruct (evl a l) eqn:E; cbn [Z.b2z].
    + assert (Z0 : count a ls = 0 <-> forall x, In x ls -> evl a x = false).
      { clear. induction ls as [|x ls IH]; [split; [intros _ x []|reflexivity]|]. rewrite count_cons.
        assert (0 <= count a ls) by (clear; induction ls as [|y l IHl]; [cbv; discriminate|]; rewrite count_cons; destruct (evl a y); cbn [Z.b2z]; lia).
        split.
        - intros Hs y Hy. destruct (evl a x) eqn:Ex; cbn [Z.b2z] in Hs; [exfalso; lia|]. destruct Hy as [<-|Hy]; [exact Ex|]. apply IH; [lia|exact Hy].
        - intros Hs. rewrite (Hs x (or_introl eq_refl)). cbn [Z.b2z]. rewrite Z.add_0_l. apply IH. intros y Hy. apply Hs. right. exact Hy. }
      split.
      * intros H. exists 0%nat. split; [cbn; lia|]. intros [|i] x Hx; cbn in Hx.
        -- injection Hx as <-. tauto.
        -- assert (F : evl a x = false) by (apply Z0; [lia|eapply nth_error_In; eauto]). rewrite F. split; [discriminate|lia].
      * intros (di & Hd & H). assert (di = 0%nat) by (symmetry; apply (H 0%nat l eq_refl); exact E). subst di.
        assert (count a ls = 0); [|lia]. apply Z0. intros x Hx. apply In_nth_error in Hx. destruct Hx as [i Hi].
        specialize (H (S i) x Hi). destruct (evl a x); [|reflexivity]. exfalso. destruct H as [H _]. specialize (H eq_refl). lia.
    + rewrite Z.add_0_l, IH. split.
      * intros (di & Hd & H). exists (S di). split; [cbn; lia|]. intros [|i] x Hx; cbn in Hx.
        -- injection Hx as <-. rewrite E. split; [discriminate|lia].
        -- rewrite (H i x Hx). lia.
      * intros (di & Hd & H). destruct di as [|di]; [exfalso; specialize (H 0%nat l eq_refl); destruct H as [_ H]; rewrite (H eq_refl) in E; discriminate|].
        exists di. cbn in Hd. split; [lia|]. intros i x Hx. rewrite (H (S i) x Hx). lia.
Qed.
Lemma only_at_fun a ls di dj : only_at a ls di -> only_at a ls dj -> di = dj.
Proof.
  intros [H1 H2] [H3 H4]. destruct (nth_error ls di) as [l|] eqn:E; [|apply nth_error_None in E; lia].
  apply (H4 di l E). apply (H2 di l E). reflexivity.
Qed.

Section End.
  Variables (out re : bool) (ts : list tvars) (d : dir) (cnt top : Z).
  Hypothesis Ht : 0 <= top.
  Hypothesis Hts : Forall (tile_lits top) ts.

  Lemma block_consequences_sat a di :
    sat a (block_consequences out re ts d cnt di) = true <-> block_rule out re ts d cnt a di.
  Proof.
    unfold block_consequences. rewrite sat_flat_map. unfold block_rule. rewrite Forall_forall in Hts.
    assert (X : forall i t, In t ts ->
      (sat a (if Nat.leb di i && (Z.of_nat i <? Z.of_nat di + cnt) then [[end_lit out t d]; [is_belt t]]
              else if re then set_all_false (all_direction t) else if out then [[- end_lit out t d]] else [[- end_lit out t d]; [is_belt t]]) = true <->
       (in_block di cnt i -> evl a (end_lit out t d) = true /\ evl a (is_belt t) = true) /\
       (~ in_block di cnt i -> if re then forall e, evl a (input_dir t e) = false /\ evl a (output_dir t e) = false
          else evl a (end_lit out t d) = false /\ (out = false -> evl a (is_belt t) = true)))).
    { intros i t Hin. pose proof (Hts t Hin) as O.
      assert (Nz : end_lit out t d <> 0) by (unfold end_lit; destruct out; [pose proof (tl_o _ _ O d)|pose proof (tl_i _ _ O d)]; unfold lit_ok in *; lia).
      assert (Q : (Nat.leb di i && (Z.of_nat i <? Z.of_nat di + cnt) = true <-> in_block di cnt i)).
      { rewrite andb_true_iff, Nat.leb_le, Z.ltb_lt. reflexivity. }
      destruct (Nat.leb di i && (Z.of_nat i <? Z.of_nat di + cnt)).
      - rewrite !sat_cons_iff, sat_nil, !satc_one. pose proof (proj1 Q eq_refl). tauto.
      - assert (N : ~ in_block di cnt i) by (intros C; apply Q in C; discriminate). destruct re.
        + rewrite sat_all_false by (unfold all_direction; apply Forall_app; split; apply nonzero_map; intros e; [pose proof (tl_i _ _ O e)|pose proof (tl_o _ _ O e)]; unfold lit_ok in *; lia).
          unfold all_direction, inputs, outputs. split.
          * intros H. split; [tauto|]. intros _ e. split; apply H; apply in_or_app; [left|right]; apply in_map, directions_all.
          * intros [_ H] l Hl. specialize (H N). apply in_app_or in Hl. destruct Hl as [Hl|Hl]; apply in_map_iff in Hl; destruct Hl as (e & <- & _); apply H.
        + destruct out; rewrite !sat_cons_iff, sat_nil, ?satc_one, evl_neg, negb_true_iff by exact Nz; intuition (solve [auto | discriminate]). }
    split.
    - intros H i t Hi. apply X; [eapply nth_error_In; eauto|]. specialize (H (i, t) (proj2 (indexed_in ts i t) Hi)). exact H.
    - intros H [i t] Hin. apply indexed_in in Hin. pose proof (H i t Hin) as Hi. apply X in Hi; [|eapply nth_error_In; eauto]. exact Hi.
  Qed.

  Lemma nth_fresh k i v : nth_error (fresh top k) i = Some v -> v = top + 1 + Z.of_nat i.
  Proof using.
    revert i v. generalize top. clear. induction k as [|k IH]; intros t [|i] v; cbn [fresh nth_error]; try discriminate.
    - intros [= <-]. lia.
    - intros H. rewrite (IH _ _ _ H). lia.
  Qed.

  (** The clauses, with the offset variables visible. *)
  Lemma end_sat cs offs top' a : setup_balancer_end out re ts d cnt top = Some (cs, offs, top') ->
    cnt <= len ts /\ offs = fresh top (Z.to_nat (len ts - cnt)) /\ top' = top + (len ts - cnt) /\
    (sat a cs = true <->
     if len ts =? cnt then full_rule out ts d a
     else exists di, only_at a offs di /\ block_rule out re ts d cnt a di).
  Proof.
    unfold setup_balancer_end. destruct (Z.leb_spec cnt (len ts)) as [Hc|Hc]; [|discriminate]. cbn [negb].
    set (offsets := fresh top (Z.to_nat (len ts - cnt))).
    assert (Lo : List.length offsets = Z.to_nat (len ts - cnt)) by apply fresh_length.
    intros E. assert (E1 : offs = offsets /\ top' = top + len offsets) by (split; congruence).
    assert (E2 : cs = match offsets with [] => flat_map (fun t => if out then [[output_dir t d]; [is_belt t]] else [[input_dir t d]]) ts
        | _ => (quadratic_one offsets ++ flat_map (fun dl => implies [snd dl] (block_consequences out re ts d cnt (fst dl))) (indexed offsets))%list end) by congruence.
    destruct E1 as [-> ->]. split; [exact Hc|]. split; [reflexivity|]. split; [unfold len at 1; rewrite Lo; lia|]. rewrite E2. clear E E2.
    assert (Onz : Forall nonzero offsets).
    { unfold offsets. apply Forall_forall. intros v Hv. apply fresh_In in Hv. unfold nonzero. lia. }
    destruct (Z.eqb_spec (len ts) cnt) as [Ec|Ec].
    - assert (offsets = []) as -> by (destruct offsets; [reflexivity|cbn in Lo; lia]).
      rewrite sat_flat_map. unfold full_rule, end_lit. split.
      + intros H t Hin. specialize (H t Hin). destruct out; rewrite !sat_cons_iff, sat_nil, ?satc_one in H; intuition (solve [auto | discriminate]).
      + intros H t Hin. specialize (H t Hin). destruct out; rewrite !sat_cons_iff, sat_nil, ?satc_one; intuition.
    - assert (Q : sat a (match offsets with [] => flat_map (fun t => if out then [[output_dir t d]; [is_belt t]] else [[input_dir t d]]) ts
        | _ => (quadratic_one offsets ++ flat_map (fun dl => implies [snd dl] (block_consequences out re ts d cnt (fst dl))) (indexed offsets))%list end) =
        sat a (quadratic_one offsets ++ flat_map (fun dl => implies [snd dl] (block_consequences out re ts d cnt (fst dl))) (indexed offsets))).
      { destruct offsets; [cbn in Lo; lia|reflexivity]. }
      rewrite Q, sat_app_iff, quadratic_one_sat, only_at_count, sat_flat_map by exact Onz. split.
      + intros [(di & Hd) H]. exists di. split; [exact Hd|]. destruct (nth_error offsets di) as [l|] eqn:El; [|apply nth_error_None in El; destruct Hd; lia].
        specialize (H (di, l) (proj2 (indexed_in _ _ _) El)). cbn [fst snd] in H. rewrite sat_implies1, block_consequences_sat in H.
        * apply H. apply (proj2 Hd di l El). reflexivity.
        * rewrite Forall_forall in Onz. apply Onz. eapply nth_error_In; eauto.
      + intros (di & Hd & H). split; [eauto|]. intros [i l] Hin. apply indexed_in in Hin. cbn [fst snd].
        rewrite sat_implies1, block_consequences_sat by (rewrite Forall_forall in Onz; apply Onz; eapply nth_error_In; eauto).
        intros El. apply (proj2 Hd i l Hin) in El. subst i. exact H.
  Qed.
  Lemma end_ok cs offs top' : setup_balancer_end out re ts d cnt top = Some (cs, offs, top') -> cnf_ok top' cs.
  Proof.
    intros E. pose proof E as E0. destruct (end_sat _ _ _ (fun _ => true) E) as (Hc & -> & Et & _). unfold setup_balancer_end in E0.
    destruct (negb (cnt <=? len ts)); [discriminate|].
    set (offsets := fresh top (Z.to_nat (len ts - cnt))) in *.
    assert (E2 : cs = match offsets with [] => flat_map (fun t => if out then [[output_dir t d]; [is_belt t]] else [[input_dir t d]]) ts
        | _ => (quadratic_one offsets ++ flat_map (fun dl => implies [snd dl] (block_consequences out re ts d cnt (fst dl))) (indexed offsets))%list end) by congruence.
    rewrite E2. clear E0 E2. assert (Oo : Forall (lit_ok top') offsets) by (apply fresh_ok; lia).
    assert (Ot : forall t, In t ts -> tile_lits top t) by (apply Forall_forall; exact Hts).
    assert (Up : forall l, lit_ok top l -> lit_ok top' l) by (intros l; apply lit_ok_mono; lia).
    assert (One : forall l, lit_ok top l -> cnf_ok top' [[l]]) by (intros l Hl; apply cnf_ok_cons; [constructor; [apply Up; exact Hl|constructor]|constructor]).
    assert (B : forall di, cnf_ok top' (block_consequences out re ts d cnt di)).
    { intros di. unfold block_consequences. apply cnf_ok_flat_map. intros [i t] Hin. apply indexed_in in Hin. apply nth_error_In in Hin. pose proof (Ot t Hin) as O. cbn [fst snd].
      assert (Le : lit_ok top (if out then output_dir t d else input_dir t d)) by (destruct out; apply O).
      assert (Two : forall x y, lit_ok top x -> lit_ok top y -> cnf_ok top' [[x]; [y]]) by (intros x y Hx Hy; change [[x]; [y]] with ([[x]] ++ [[y]])%list; apply cnf_ok_app; apply One; assumption).
      destruct (_ && _); [apply Two; [exact Le|apply O]|]. destruct re.
      - apply set_all_false_ok. unfold all_direction. apply Forall_app. split; apply Forall_dirs; intros e; apply Up, O.
      - destruct out; [apply One, lit_ok_opp, Le|apply Two; [apply lit_ok_opp, Le|apply O]]. }
    assert (G : cnf_ok top' (quadratic_one offsets ++ flat_map (fun dl => implies [snd dl] (block_consequences out re ts d cnt (fst dl))) (indexed offsets))%list).
    { apply cnf_ok_app; [apply quadratic_one_ok; exact Oo|]. apply cnf_ok_flat_map. intros [i l] Hin. apply indexed_in in Hin. apply nth_error_In in Hin. cbn [fst snd].
      apply implies_ok; [|apply B]. constructor; [|constructor]. rewrite Forall_forall in Oo. apply Oo. exact Hin. }
    destruct offsets; [|exact G]. apply cnf_ok_flat_map. intros t Hin. pose proof (Ot t Hin) as O.
    destruct out; [change [[output_dir t d]; [is_belt t]] with ([[output_dir t d]] ++ [[is_belt t]])%list; apply cnf_ok_app; apply One; apply O|apply One; apply O].
  Qed.
End End.

(** Assignments that select offsets. *)
Definition select (a : assignment) (top : Z) (xs : list Z) : assignment := fun v => if v <=? top then a v else existsb (Z.eqb v) xs.
Lemma select_agree a top xs : agree top a (select a top xs).
Proof. intros v Hv. unfold select. destruct (Z.leb_spec v top); [reflexivity|lia]. Qed.
Lemma select_only a top xs t k di : 0 <= top <= t -> (di < k)%nat -> In (t + 1 + Z.of_nat di) xs ->
  (forall x, In x xs -> t < x <= t + Z.of_nat k -> x = t + 1 + Z.of_nat di) ->
  only_at (select a top xs) (fresh t k) di.
Proof.
  intros Ht Hd Hin Hx. split; [rewrite fresh_length; exact Hd|]. intros i l Hl. assert (Hi : (i < k)%nat) by (rewrite <- (fresh_length t k); apply nth_error_Some; congruence).
  pose proof (nth_fresh t k i l Hl) as ->.
  rewrite evl_pos by lia. unfold select. destruct (Z.leb_spec (t + 1 + Z.of_nat i) top); [lia|]. rewrite existsb_exists. split.
  - intros (x & Hin' & E). apply Z.eqb_eq in E. subst x. specialize (Hx _ Hin'). lia.
  - intros ->. exists (t + 1 + Z.of_nat di). split; [exact Hin|apply Z.eqb_refl].
Qed.
Lemma only_at_agree a b top ls di : agree top a b -> Forall (lit_ok top) ls -> only_at a ls di -> only_at b ls di.
Proof.
  intros Ag Ok [H1 H2]. split; [exact H1|]. intros i l Hl. rewrite <- (evl_agree top a b l Ag); [apply H2; exact Hl|].
  rewrite Forall_forall in Ok. apply Ok. eapply nth_error_In; eauto.
Qed.
Lemma block_rule_agree out re ts d cnt a b top di : agree top a b -> Forall (tile_lits top) ts ->
  block_rule out re ts d cnt a di -> block_rule out re ts d cnt b di.
Proof.
  intros Ag Ok H i t Hi. rewrite Forall_forall in Ok. pose proof (Ok t (nth_error_In _ _ Hi)) as O. destruct (H i t Hi) as [H1 H2].
  assert (E1 : evl a (end_lit out t d) = evl b (end_lit out t d)) by (apply (evl_agree top); [exact Ag|]; unfold end_lit; destruct out; apply O).
  assert (E2 : evl a (is_belt t) = evl b (is_belt t)) by (apply (evl_agree top); [exact Ag|apply O]).
  rewrite <- E1, <- E2. split; [exact H1|]. intros N. specialize (H2 N). destruct re; [|exact H2].
  intros e. rewrite <- (evl_agree top a b (input_dir t e) Ag), <- (evl_agree top a b (output_dir t e) Ag); [apply H2|apply O|apply O].
Qed.
Lemma full_rule_agree out ts d a b top : agree top a b -> Forall (tile_lits top) ts -> full_rule out ts d a -> full_rule out ts d b.
Proof.
  intros Ag Ok H t Hi. rewrite Forall_forall in Ok. pose proof (Ok t Hi) as O. specialize (H t Hi).
  rewrite <- (evl_agree top a b (end_lit out t d) Ag), <- (evl_agree top a b (is_belt t) Ag); [exact H|apply O|unfold end_lit; destruct out; apply O].
Qed.

Lemma slice_in {A} (l : list A) i j x : 0 <= i <= j -> (In x (slice l i j) <-> exists k, i <= Z.of_nat k < j /\ nth_error l k = Some x).
Proof.
  intros H. unfold slice.
  assert (N : forall (l : list A) n k, nth_error (skipn n l) k = nth_error l (n + k)).
  { clear. induction l as [|y l IH]; intros [|n] k; cbn; try reflexivity; [destruct k; reflexivity|apply IH]. }
  assert (F : forall (l : list A) n k, nth_error (firstn n l) k = if Nat.ltb k n then nth_error l k else None).
  { clear. induction l as [|y l IH]; intros [|n] [|k]; cbn [firstn nth_error]; rewrite ?IH; try reflexivity; match goal with |- context [Nat.ltb ?x ?y] => destruct (Nat.ltb x y) end; reflexivity. }
  split.
  - intros Hin. apply In_nth_error in Hin. destruct Hin as [k Hk]. rewrite F in Hk. destruct (Nat.ltb_spec k (Z.to_nat (j - i))); [|discriminate].
    rewrite N in Hk. exists (Z.to_nat i + k)%nat. split; [lia|exact Hk].
  - intros (k & Hk & E). apply nth_error_In with (n := (k - Z.to_nat i)%nat). rewrite F. destruct (Nat.ltb_spec (k - Z.to_nat i) (Z.to_nat (j - i))); [|lia].
    rewrite N. replace (Z.to_nat i + (k - Z.to_nat i))%nat with k by lia. exact E.
Qed.

(** Alignment of the two offsets. *)
Lemma align_sat n m starts ends a : Forall nonzero starts -> Forall nonzero ends ->
  (sat a (align_clauses n m starts ends) = true <->
   if m <=? n then forall i l, nth_error starts i = Some l -> evl a l = true ->
      exists j x, nth_error ends j = Some x /\ evl a x = true /\ Z.of_nat i <= Z.of_nat j <= Z.of_nat i + n - m
   else forall j l, nth_error ends j = Some l -> evl a l = true ->
      exists i x, nth_error starts i = Some x /\ evl a x = true /\ Z.of_nat j <= Z.of_nat i <= Z.of_nat j + m - n).
Proof.
  intros Hs He. unfold align_clauses.
  assert (X : forall k xs ys, 0 <= k -> Forall nonzero xs ->
    (sat a (flat_map (fun il => implies [snd il] [slice ys (Z.of_nat (fst il)) (Z.of_nat (fst il) + 1 + k)]) (indexed xs)) = true <->
     forall i l, nth_error xs i = Some l -> evl a l = true -> exists j x, nth_error ys j = Some x /\ evl a x = true /\ Z.of_nat i <= Z.of_nat j <= Z.of_nat i + k)).
  { intros k xs ys Hk Hx. rewrite sat_flat_map. rewrite Forall_forall in Hx. split.
    - intros H i l Hi El. specialize (H (i, l) (proj2 (indexed_in _ _ _) Hi)). cbn [fst snd] in H.
      rewrite sat_implies1 in H by (apply Hx; eapply nth_error_In; eauto). specialize (H El). rewrite sat_one, satc_In in H. destruct H as (x & Hin & Ex).
      apply slice_in in Hin; [|lia]. destruct Hin as (j & Hj & Hn). exists j, x. split; [exact Hn|]. split; [exact Ex|lia].
    - intros H [i l] Hin. apply indexed_in in Hin. cbn [fst snd]. rewrite sat_implies1 by (apply Hx; eapply nth_error_In; eauto). intros El.
      destruct (H i l Hin El) as (j & x & Hn & Ex & Hj). rewrite sat_one, satc_In. exists x. split; [|exact Ex]. apply slice_in; [lia|]. exists j. split; [lia|exact Hn]. }
  destruct (Z.leb_spec m n).
  - specialize (X (n - m) starts ends ltac:(lia) Hs).
    assert (E : flat_map (fun il : nat * lit => implies [snd il] [slice ends (Z.of_nat (fst il)) (Z.of_nat (fst il) + 1 + n - m)]) (indexed starts) =
      flat_map (fun il : nat * lit => implies [snd il] [slice ends (Z.of_nat (fst il)) (Z.of_nat (fst il) + 1 + (n - m))]) (indexed starts)).
    { apply flat_map_ext. intros il. do 3 f_equal. lia. }
    rewrite E, X. split; intros H' i l Hi El; destruct (H' i l Hi El) as (j & x & E1 & E2 & E3); exists j, x; (split; [exact E1|]); (split; [exact E2|]); lia.
  - specialize (X (m - n) ends starts ltac:(lia) He).
    assert (E : flat_map (fun il : nat * lit => implies [snd il] [slice starts (Z.of_nat (fst il)) (Z.of_nat (fst il) + 1 + m - n)]) (indexed ends) =
      flat_map (fun il : nat * lit => implies [snd il] [slice starts (Z.of_nat (fst il)) (Z.of_nat (fst il) + 1 + (m - n))]) (indexed ends)).
    { apply flat_map_ext. intros il. do 3 f_equal. lia. }
    rewrite E, X. split; intros H' i l Hi El; destruct (H' i l Hi El) as (j & x & E1 & E2 & E3); exists j, x; (split; [exact E1|]); (split; [exact E2|]); lia.
Qed.
Lemma align_only n m starts ends a i j : Forall nonzero starts -> Forall nonzero ends -> only_at a starts i -> only_at a ends j ->
  (sat a (align_clauses n m starts ends) = true <->
   if m <=? n then Z.of_nat i <= Z.of_nat j <= Z.of_nat i + n - m else Z.of_nat j <= Z.of_nat i <= Z.of_nat j + m - n).
Proof.
  intros Hs He [Li Oi] [Lj Oj]. rewrite align_sat by assumption.
  destruct (nth_error starts i) as [li|] eqn:Ei; [|apply nth_error_None in Ei; lia]. destruct (nth_error ends j) as [lj|] eqn:Ej; [|apply nth_error_None in Ej; lia].
  destruct (m <=? n); split.
  - intros H. destruct (H i li Ei (proj2 (Oi i li Ei) eq_refl)) as (j' & x & E1 & E2 & E3). apply (Oj j' x E1) in E2. subst j'. exact E3.
  - intros H i' l Hl El. apply (Oi i' l Hl) in El. subst i'. exists j, lj. split; [exact Ej|]. split; [apply (Oj j lj Ej); reflexivity|exact H].
  - intros H. destruct (H j lj Ej (proj2 (Oj j lj Ej) eq_refl)) as (i' & x & E1 & E2 & E3). apply (Oi i' x E1) in E2. subst i'. exact E3.
  - intros H j' l Hl El. apply (Oj j' l Hl) in El. subst j'. exists i, li. split; [exact Ei|]. split; [apply (Oi i li Ei); reflexivity|exact H].
Qed.

(** ** In terms of the layout *)
(** Along the cells [at_ 0 .. at_ (k-1)] of an edge, [cnt] consecutive belts
    from number [i] on are ends: they take items moving in direction [d], or
    push in direction [d] if [out]. *)
Definition end_belt (out : bool) (d : dir) (t : tile) : Prop :=
  if out then exists e, t = Belt e d else exists o, t = Belt d o.
Definition used_at (g : grid) (a : assignment) (T : layout) (at_ : Z -> pos) (k : Z) (out re : bool) (d : dir) (cnt i : Z) : Prop :=
  0 <= i < k - cnt /\
  forall y, 0 <= y < k ->
    (i <= y < i + cnt -> end_belt out d (T (at_ y))) /\
    (~ i <= y < i + cnt ->
       if re then T (at_ y) = Empty
       else if out then evl a (output_dir (tile_at g (at_ y)) d) = false
       else exists e o, T (at_ y) = Belt e o /\ e <> d).
(** All cells of the edge are ends. *)
Definition all_used (g : grid) (a : assignment) (T : layout) (at_ : Z -> pos) (k : Z) (out : bool) (d : dir) : Prop :=
  forall y, 0 <= y < k ->
    if out then exists e, T (at_ y) = Belt e d else evl a (input_dir (tile_at g (at_ y)) d) = true.

Definition edge (g : grid) (at_ : Z -> pos) (k : Z) : list tvars := map (fun y => tile_at g (at_ y)) (range k).
Lemma nth_edge g at_ k i t : nth_error (edge g at_ k) i = Some t <-> Z.of_nat i < k /\ t = tile_at g (at_ (Z.of_nat i)).
Proof.
  unfold edge, range. rewrite map_map. destruct (Z_lt_le_dec (Z.of_nat i) k) as [H|H].
  - assert (E : nth_error (seq 0 (Z.to_nat k)) i = Some i) by (rewrite (nth_error_nth' _ 0%nat) by (rewrite seq_length; lia); rewrite seq_nth by lia; reflexivity).
    rewrite (map_nth_error _ _ _ E). split; [intros [= <-]; auto|intros [_ ->]; reflexivity].
  - split; [|lia]. intros E. assert (L : (i < List.length (map (fun x : nat => tile_at g (at_ (Z.of_nat x))) (seq 0 (Z.to_nat k))))%nat) by (apply nth_error_Some; congruence).
    rewrite map_length, seq_length in L. lia.
Qed.
Lemma len_edge g at_ k : 0 <= k -> len (edge g at_ k) = k.
Proof. intros H. unfold len, edge, range. rewrite !map_length, seq_length. lia. Qed.

Section Layout.
  Variable g : grid.
  Hypothesis W : wf_grid g.
  Variable a : assignment.
  Hypothesis S : solves_init g a.
  Variable T : layout.
  Hypothesis R : reads g a T.
  Notation V p := (view_of a (tile_at g p)).

  Lemma Shw p : inside (garea g) p -> shows (V p) (T p).
  Proof. intros Hp. apply (T_shows g a T R); [apply (proj1 (solves_init_rules g a W) S)|exact Hp]. Qed.

  Lemma belt_in p d : inside (garea g) p -> (evl a (input_dir (tile_at g p) d) = true /\ evl a (is_belt (tile_at g p)) = true <-> exists o, T p = Belt d o).
  Proof.
    intros Hp. pose proof (Shw p Hp) as (K & B & _). change (evl a (input_dir (tile_at g p) d)) with (vi (V p) d). change (evl a (is_belt (tile_at g p))) with (vb (V p)).
    rewrite B. destruct (T p) as [| |i o|f []|f h|f k|x y]; try (split; [intros [_ E]; discriminate|intros (o' & E); discriminate]).
    destruct K as (_ & K & _). rewrite K. split; [intros [-> _]; eauto|intros (o' & [= -> _]); auto].
  Qed.
  Lemma belt_out p d : inside (garea g) p -> (evl a (output_dir (tile_at g p) d) = true /\ evl a (is_belt (tile_at g p)) = true <-> exists e, T p = Belt e d).
  Proof.
    intros Hp. pose proof (Shw p Hp) as (K & B & _). change (evl a (output_dir (tile_at g p) d)) with (vo (V p) d). change (evl a (is_belt (tile_at g p))) with (vb (V p)).
    rewrite B. destruct (T p) as [| |i o|f []|f h|f k|x y]; try (split; [intros [_ E]; discriminate|intros (o' & E); discriminate]).
    destruct K as (_ & _ & K & _). rewrite K. split; [intros [-> _]; eauto|intros (o' & [= _ ->]); auto].
  Qed.
  Lemma no_directions p : inside (garea g) p -> ((forall e, evl a (input_dir (tile_at g p) e) = false /\ evl a (output_dir (tile_at g p) e) = false) <-> T p = Empty).
  Proof.
    intros Hp. pose proof (Shw p Hp) as (K & _).
    assert (Q : (forall e, evl a (input_dir (tile_at g p) e) = false /\ evl a (output_dir (tile_at g p) e) = false) <-> forall e, vi (V p) e = false /\ vo (V p) e = false) by reflexivity.
    rewrite Q. clear Q. destruct (T p) as [| |i o|f b|f h|f k|x y]; try contradiction.
    - split; [reflexivity|]. intros _ e. destruct K as (_ & K1 & K2). auto.
    - split; [|discriminate]. intros H. destruct K as (_ & K & _). destruct (H i) as [H1 _]. rewrite (proj2 (K i) eq_refl) in H1. discriminate.
    - split; [|discriminate]. intros H. destruct b; destruct K as (_ & K1 & K2); destruct (H f) as [H1 H2]; [rewrite (proj2 (K1 f) eq_refl) in H1|rewrite (proj2 (K2 f) eq_refl) in H2]; discriminate.
    - split; [|discriminate]. intros H. destruct K as (_ & _ & _ & _ & [K|K]); destruct (H f) as [H1 H2]; congruence.
  Qed.
  Lemma not_end_in p d : inside (garea g) p -> (evl a (input_dir (tile_at g p) d) = false /\ evl a (is_belt (tile_at g p)) = true <-> exists e o, T p = Belt e o /\ e <> d).
  Proof.
    intros Hp. pose proof (Shw p Hp) as (K & B & _). change (evl a (input_dir (tile_at g p) d)) with (vi (V p) d). change (evl a (is_belt (tile_at g p))) with (vb (V p)).
    rewrite B. destruct (T p) as [| |i o|f []|f h|f k|x y]; try (split; [intros [_ E]; discriminate|intros (e' & o' & E & _); discriminate]).
    destruct K as (_ & K & _). specialize (K d). split.
    - intros [F _]. exists i, o. split; [reflexivity|]. intros ->. destruct K as [_ K]. rewrite (K eq_refl) in F. discriminate.
    - intros (e' & o' & [= -> ->] & N). split; [|reflexivity]. destruct (vi (V p) d); [|reflexivity]. exfalso. apply N. symmetry. apply K. reflexivity.
  Qed.

  Variables (at_ : Z -> pos) (k : Z) (out re : bool) (d : dir) (cnt : Z).
  Hypothesis Hk : 0 < k.
  Hypothesis Hat : forall y, 0 <= y < k -> inside (garea g) (at_ y).

  Lemma edge_lits top : grid_size g <= top -> Forall (tile_lits top) (edge g at_ k).
  Proof.
    intros Ht. apply Forall_forall. intros t Hin. apply In_nth_error in Hin. destruct Hin as [i Hi]. apply nth_edge in Hi. destruct Hi as [Hi ->].
    assert (O : tile_lits (grid_size g) (tile_at g (at_ (Z.of_nat i)))) by (apply tile_at_lits; [exact W|apply Hat; lia]).
    assert (M : forall l, lit_ok (grid_size g) l -> lit_ok top l) by (intros l; apply lit_ok_mono; exact Ht).
    destruct O. constructor; auto; eapply Forall_ok_mono; eauto.
  Qed.
  Lemma block_layout di : Z.of_nat di < k - cnt -> (block_rule out re (edge g at_ k) d cnt a di <-> used_at g a T at_ k out re d cnt (Z.of_nat di)).
  Proof.
    intros Hdi. unfold block_rule, used_at.
    assert (X : forall y, 0 <= y < k ->
      ((evl a (end_lit out (tile_at g (at_ y)) d) = true /\ evl a (is_belt (tile_at g (at_ y))) = true <-> end_belt out d (T (at_ y))) /\
       ((if re then forall e, evl a (input_dir (tile_at g (at_ y)) e) = false /\ evl a (output_dir (tile_at g (at_ y)) e) = false
          else evl a (end_lit out (tile_at g (at_ y)) d) = false /\ (out = false -> evl a (is_belt (tile_at g (at_ y))) = true)) <->
        (if re then T (at_ y) = Empty else if out then evl a (output_dir (tile_at g (at_ y)) d) = false else exists e o, T (at_ y) = Belt e o /\ e <> d)))).
    { intros y Hy. pose proof (Hat y Hy) as Hp. split.
      - unfold end_lit, end_belt. destruct out; [apply belt_out|apply belt_in]; exact Hp.
      - destruct re; [apply no_directions; exact Hp|]. unfold end_lit. destruct out.
        + split; [intros [E _]; exact E|]. intros E. split; [exact E|discriminate].
        + rewrite <- (not_end_in _ d Hp). split; intros [E1 E2]; split; auto. }
    split.
    - intros H. split; [lia|]. intros y Hy. destruct (H (Z.to_nat y) (tile_at g (at_ y))) as [H1 H2].
      { apply nth_edge. rewrite Z2Nat.id by lia. split; [lia|reflexivity]. }
      destruct (X y Hy) as [X1 X2]. split.
      + intros Hb. apply X1. apply H1. unfold in_block. lia.
      + intros Hb. apply X2. apply H2. unfold in_block. lia.
    - intros [_ H] i t Hi. apply nth_edge in Hi. destruct Hi as [Hi ->]. assert (Hy : 0 <= Z.of_nat i < k) by lia.
      destruct (H _ Hy) as [H1 H2]. destruct (X _ Hy) as [X1 X2]. split.
      + intros Hb. apply X1. apply H1. unfold in_block in Hb. lia.
      + intros Hb. apply X2. apply H2. unfold in_block in Hb. lia.
  Qed.
  Lemma full_layout : full_rule out (edge g at_ k) d a <-> all_used g a T at_ k out d.
  Proof.
    unfold full_rule, all_used. split.
    - intros H y Hy. pose proof (Hat y Hy) as Hp. specialize (H (tile_at g (at_ y))).
      destruct H as [H1 H2]; [eapply nth_error_In; apply nth_edge with (i := Z.to_nat y); rewrite Z2Nat.id by lia; split; [lia|reflexivity]|].
      unfold end_lit in H1. destruct out; [|exact H1]. apply belt_out; [exact Hp|]. auto.
    - intros H t Hin. apply In_nth_error in Hin. destruct Hin as [i Hi]. apply nth_edge in Hi. destruct Hi as [Hi ->].
      assert (Hy : 0 <= Z.of_nat i < k) by lia. specialize (H _ Hy). unfold end_lit. destruct out.
      + apply belt_out in H; [|apply Hat; exact Hy]. tauto.
      + split; [exact H|discriminate].
  Qed.
End Layout.

(** One end alone, and in the presence of other variables: solutions of the
    clauses that extend [a]. *)
Definition ends_placed (g : grid) (a : assignment) (T : layout) (at_ : Z -> pos) (k : Z) (out re : bool) (d : dir) (cnt i : Z) : Prop :=
  if k =? cnt then all_used g a T at_ k out d else used_at g a T at_ k out re d cnt i.

Section Two.
  Variable g : grid.
  Hypothesis W : wf_grid g.
  Variable a : assignment.
  Hypothesis S : solves_init g a.
  Variable T : layout.
  Hypothesis R : reads g a T.
  Variables (at1 at2 : Z -> pos) (k1 k2 : Z) (re1 re2 : bool) (d1 d2 : dir) (n m : Z).
  Hypothesis K1 : 0 < k1.
  Hypothesis K2 : 0 < k2.
  Hypothesis A1 : forall y, 0 <= y < k1 -> inside (garea g) (at1 y).
  Hypothesis A2 : forall y, 0 <= y < k2 -> inside (garea g) (at2 y).
  Variable top : Z.
  Hypothesis Htop : grid_size g <= top.

  Lemma two_ends (al : bool) cs1 starts top1 cs2 ends top2 :
    (al = true -> k1 = k2) ->
    setup_balancer_end false re1 (edge g at1 k1) d1 n top = Some (cs1, starts, top1) ->
    setup_balancer_end true re2 (edge g at2 k2) d2 m top1 = Some (cs2, ends, top2) ->
    (exists b, agree top a b /\ sat b (cs1 ++ cs2 ++ if al then align_clauses n m starts ends else [])%list = true) <->
    exists i j, ends_placed g a T at1 k1 false re1 d1 n i /\ ends_placed g a T at2 k2 true re2 d2 m j /\
      (al = true -> if m <=? n then (n < k1 -> i <= j <= i + n - m) else (m < k1 -> j <= i <= j + m - n)).
  Proof.
    intros Hal E1 E2.
    assert (Hg : 0 <= grid_size g). { pose proof W as ((Ww & Wh) & Ht & _). unfold grid_size. pose proof (tile_size_pos g). assert (0 <= width (geo g) * height (geo g) * tile_size g) by (repeat apply Z.mul_nonneg_nonneg; lia). lia. }
    assert (Ok1 : Forall (tile_lits top) (edge g at1 k1)) by (apply edge_lits; auto).
    pose proof (len_edge g at1 k1 ltac:(lia)) as L1. pose proof (len_edge g at2 k2 ltac:(lia)) as L2.
    destruct (end_sat false re1 (edge g at1 k1) d1 n top ltac:(lia) Ok1 cs1 starts top1 a E1) as (Hc1 & Es & Et1 & _). rewrite L1 in *.
    assert (Ok2 : Forall (tile_lits top1) (edge g at2 k2)) by (apply edge_lits; auto; lia).
    destruct (end_sat true re2 (edge g at2 k2) d2 m top1 ltac:(lia) Ok2 cs2 ends top2 a E2) as (Hc2 & Ee & Et2 & _). rewrite L2 in *.
    assert (Ok2' : Forall (tile_lits top) (edge g at2 k2)) by (apply edge_lits; auto).
    assert (S1 : forall b, sat b cs1 = true <-> if k1 =? n then full_rule false (edge g at1 k1) d1 b else exists di, only_at b starts di /\ block_rule false re1 (edge g at1 k1) d1 n b di).
    { intros b. destruct (end_sat false re1 (edge g at1 k1) d1 n top ltac:(lia) Ok1 cs1 starts top1 b E1) as (_ & _ & _ & H). rewrite L1 in H. exact H. }
    assert (S2 : forall b, sat b cs2 = true <-> if k2 =? m then full_rule true (edge g at2 k2) d2 b else exists di, only_at b ends di /\ block_rule true re2 (edge g at2 k2) d2 m b di).
    { intros b. destruct (end_sat true re2 (edge g at2 k2) d2 m top1 ltac:(lia) Ok2 cs2 ends top2 b E2) as (_ & _ & _ & H). rewrite L2 in H. exact H. }
    assert (Ns : Forall nonzero starts) by (subst starts; apply Forall_forall; intros v Hv; apply fresh_In in Hv; unfold nonzero; lia).
    assert (Nn : Forall nonzero ends) by (subst ends; apply Forall_forall; intros v Hv; apply fresh_In in Hv; unfold nonzero; lia).
    assert (Len1 : List.length starts = Z.to_nat (k1 - n)) by (subst starts; apply fresh_length).
    assert (Len2 : List.length ends = Z.to_nat (k2 - m)) by (subst ends; apply fresh_length).
    assert (Al0 : forall b, (al = true -> if m <=? n then k1 = n else k2 = m) -> sat b (if al then align_clauses n m starts ends else []) = true).
    { intros b Hal0. destruct al; [|reflexivity]. specialize (Hal0 eq_refl). rewrite align_sat by assumption. destruct (m <=? n).
      - assert (starts = []) as -> by (destruct starts; [reflexivity|cbn in Len1; lia]). intros [|i] l; discriminate.
      - assert (ends = []) as -> by (destruct ends; [reflexivity|cbn in Len2; lia]). intros [|i] l; discriminate. }
    split.
    - intros (b & Ag & Sb). rewrite !sat_app_iff in Sb. destruct Sb as (B1 & B2 & B3). apply S1 in B1. apply S2 in B2. unfold ends_placed.
      assert (P1 : exists i : nat, (if k1 =? n then all_used g a T at1 k1 false d1 else used_at g a T at1 k1 false re1 d1 n (Z.of_nat i)) /\ (k1 <> n -> only_at b starts i)).
      { destruct (Z.eqb_spec k1 n) as [Eq|Nq].
        - exists 0%nat. split; [|congruence]. apply (full_layout g W a S T R at1 k1 false d1 A1). eapply full_rule_agree; [apply agree_sym; exact Ag|exact Ok1|exact B1].
        - destruct B1 as (di & O1 & Bl). exists di. split; [|auto]. assert (Z.of_nat di < k1 - n) by (destruct O1; lia).
          apply (block_layout g W a S T R at1 k1 false re1 d1 n A1 di H). eapply block_rule_agree; [apply agree_sym; exact Ag|exact Ok1|exact Bl]. }
      assert (P2 : exists j : nat, (if k2 =? m then all_used g a T at2 k2 true d2 else used_at g a T at2 k2 true re2 d2 m (Z.of_nat j)) /\ (k2 <> m -> only_at b ends j)).
      { destruct (Z.eqb_spec k2 m) as [Eq|Nq].
        - exists 0%nat. split; [|congruence]. apply (full_layout g W a S T R at2 k2 true d2 A2). eapply full_rule_agree; [apply agree_sym; exact Ag|exact Ok2'|exact B2].
        - destruct B2 as (dj & O2 & Bl). exists dj. split; [|auto]. assert (Z.of_nat dj < k2 - m) by (destruct O2; lia).
          apply (block_layout g W a S T R at2 k2 true re2 d2 m A2 dj H). eapply block_rule_agree; [apply agree_sym; exact Ag|exact Ok2'|exact Bl]. }
      destruct P1 as (i & P1 & O1). destruct P2 as (j & P2 & O2). exists (Z.of_nat i), (Z.of_nat j). split; [exact P1|]. split; [exact P2|].
      intros ->. specialize (Hal eq_refl). destruct (Z.leb_spec m n) as [Hmn|Hmn]; intros Hlt.
      + pose proof (proj1 (align_only n m starts ends b i j Ns Nn (O1 ltac:(lia)) (O2 ltac:(lia))) B3) as Q.
        destruct (Z.leb_spec m n); [exact Q|lia].
      + pose proof (proj1 (align_only n m starts ends b i j Ns Nn (O1 ltac:(lia)) (O2 ltac:(lia))) B3) as Q.
        destruct (Z.leb_spec m n); [lia|exact Q].
    - intros (i & j & P1 & P2 & Ha). unfold ends_placed in P1, P2.
      set (b := select a top ((if k1 =? n then [] else [top + 1 + i]) ++ (if k2 =? m then [] else [top1 + 1 + j]))%list). exists b. split; [apply select_agree|].
      assert (Ag : agree top a b) by apply select_agree.
      assert (O1 : k1 <> n -> exists i', i = Z.of_nat i' /\ only_at b starts i').
      { intros Nq. destruct (Z.eqb_spec k1 n); [contradiction|]. destruct P1 as [P1 _]. exists (Z.to_nat i). split; [lia|]. subst starts.
        unfold b. destruct (Z.eqb_spec k1 n); [contradiction|]. apply select_only; [lia|lia|left; lia|].
        intros x Hin Hx. apply in_app_or in Hin. destruct Hin as [[<-|[]]|Hin]; [lia|]. destruct (Z.eqb_spec k2 m); [destruct Hin|]. destruct P2 as [P2 _]. destruct Hin as [<-|[]]. lia. }
      assert (O2 : k2 <> m -> exists j', j = Z.of_nat j' /\ only_at b ends j').
      { intros Nq. destruct (Z.eqb_spec k2 m); [contradiction|]. destruct P2 as [P2 _]. exists (Z.to_nat j). split; [lia|]. subst ends.
        unfold b. destruct (Z.eqb_spec k2 m); [contradiction|]. apply select_only; [lia|lia|apply in_or_app; right; left; lia|].
        intros x Hin Hx. apply in_app_or in Hin. destruct Hin as [Hin|[<-|[]]]; [|lia]. destruct (Z.eqb_spec k1 n); [destruct Hin|]. destruct P1 as [P1 _]. destruct Hin as [<-|[]]. lia. }
      rewrite !sat_app_iff. split; [|split].
      + apply S1. destruct (Z.eqb_spec k1 n) as [Eq|Nq].
        * eapply full_rule_agree; [exact Ag|exact Ok1|]. apply (full_layout g W a S T R at1 k1 false d1 A1). exact P1.
        * destruct (O1 Nq) as (i' & -> & Oi). exists i'. split; [exact Oi|]. eapply block_rule_agree; [exact Ag|exact Ok1|].
          apply (block_layout g W a S T R at1 k1 false re1 d1 n A1); [destruct P1; lia|exact P1].
      + apply S2. destruct (Z.eqb_spec k2 m) as [Eq|Nq].
        * eapply full_rule_agree; [exact Ag|exact Ok2'|]. apply (full_layout g W a S T R at2 k2 true d2 A2). exact P2.
        * destruct (O2 Nq) as (j' & -> & Oj). exists j'. split; [exact Oj|]. eapply block_rule_agree; [exact Ag|exact Ok2'|].
          apply (block_layout g W a S T R at2 k2 true re2 d2 m A2); [destruct P2; lia|exact P2].
      + destruct al; [|reflexivity]. specialize (Hal eq_refl). specialize (Ha eq_refl).
        destruct (Z.leb_spec m n) as [Hmn|Hmn].
        * destruct (Z.eq_dec k1 n) as [Eq|Nq]; [apply Al0; intros _; destruct (Z.leb_spec m n); lia|].
          destruct (O1 Nq) as (i' & -> & Oi). destruct (O2 ltac:(lia)) as (j' & -> & Oj). rewrite (align_only n m starts ends b i' j' Ns Nn Oi Oj).
          destruct (Z.leb_spec m n); [apply Ha; lia|lia].
        * destruct (Z.eq_dec k2 m) as [Eq|Nq]; [apply Al0; intros _; destruct (Z.leb_spec m n); lia|].
          destruct (O1 ltac:(lia)) as (i' & -> & Oi). destruct (O2 Nq) as (j' & -> & Oj). rewrite (align_only n m starts ends b i' j' Ns Nn Oi Oj).
          destruct (Z.leb_spec m n); [lia|apply Ha; lia].
  Qed.
End Two.
