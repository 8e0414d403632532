(** Proofs about optimise_colours: what the clauses say. *)
From Coq Require Import ZArith List Bool Lia Permutation.
From Verif Require Import P_Dict P_Benes P_Network P_Network2.
From Verif Require Import Spec_Cnf M_Json M_Dict M_Util P_Cnf P_Util P_Util3 P_Tile P_Allocate P_Grid P_GridOk M_Network Spec_Network Spec_Colours M_Colours P_Colours P_Colours2.
Import ListNotations.
Open Scope Z_scope.

Lemma digits_comm x y : digits_apart x y = digits_apart y x.
Proof. unfold digits_apart. rewrite Z.max_comm. f_equal. apply filter_ext. intros i. apply xorb_comm. Qed.

(** ** Renaming *)
Lemma occurs_map f c l : (forall d, In (Some d) l -> f d = f c -> d = c) -> occurs (f c) (map (option_map f) l) = occurs c l.
Proof.
  induction l as [|x l IH]; intros H; [reflexivity|]. cbn [map]. rewrite !occurs_cons, IH by (intros; apply H; [right; assumption|assumption]).
  f_equal. destruct x as [y|]; cbn [option_map is_colour]; [|reflexivity]. destruct (Z.eqb_spec (f y) (f c)) as [E|E], (Z.eqb_spec y c) as [E'|E']; try reflexivity; [|congruence].
  exfalso. apply E'. apply H; [left; reflexivity|exact E].
Qed.
Lemma input_slots_recolour f net : input_slots (recolour f net) = map (option_map f) (input_slots net).
Proof. unfold input_slots, recolour. induction net as [|nd net IH]; [reflexivity|]. cbn. rewrite IH. reflexivity. Qed.
Lemma output_slots_recolour f net : output_slots (recolour f net) = map (option_map f) (output_slots net).
Proof. unfold output_slots, recolour. induction net as [|nd net IH]; [reflexivity|]. cbn. rewrite IH. reflexivity. Qed.
Lemma recolour_counts f net c : keeps_apart net f -> has_colour net c ->
  consumed (recolour f net) (f c) = consumed net c /\ produced (recolour f net) (f c) = produced net c.
Proof.
  intros K H. change (consumed (recolour f net) (f c)) with (occurs (f c) (input_slots (recolour f net))). change (produced (recolour f net) (f c)) with (occurs (f c) (output_slots (recolour f net))).
  rewrite input_slots_recolour, output_slots_recolour. split; apply occurs_map; intros d I E; apply K; auto; [left|right]; apply occurs_in; exact I.
Qed.
Lemma recolour_has f net x : has_colour (recolour f net) x -> exists c, has_colour net c /\ x = f c.
Proof.
  intros [H|H]; [change (consumed (recolour f net) x) with (occurs x (input_slots (recolour f net))) in H; rewrite input_slots_recolour in H
                |change (produced (recolour f net) x) with (occurs x (output_slots (recolour f net))) in H; rewrite output_slots_recolour in H];
  apply (proj1 (occurs_in _ _)) in H; apply in_map_iff in H; destruct H as ([c|] & E & I); try discriminate; cbn in E; injection E as <-; exists c; (split; [|reflexivity]); [left|right]; apply occurs_in; exact I.
Qed.
Lemma counted_recolour f net : keeps_apart net f -> counted_pairs (recolour f net) = map (fun p => (f (fst p), f (snd p))) (counted_pairs net).
Proof.
  intros K. change (counted_pairs (recolour f net)) with (pairs_by (innerb (recolour f net)) (sides (recolour f net))). change (counted_pairs net) with (pairs_by (innerb net) (sides net)).
  assert (E : sides (recolour f net) = map (fun s : side => (option_map f (fst s), option_map f (snd s))) (sides net)) by (unfold sides, recolour; clear K; induction net as [|nd r IH]; [reflexivity|]; cbn; rewrite IH; reflexivity).
  rewrite E. assert (I : forall c, has_colour net c -> innerb (recolour f net) (f c) = innerb net c).
  { intros c H. unfold innerb. destruct (recolour_counts f net c K H) as [-> ->]. reflexivity. }
  assert (S : forall a b, In (Some a, Some b) (sides net) -> has_colour net a /\ has_colour net b) by (intros a b H; apply (sides_colour net _ a b H eq_refl)).
  revert S. generalize (sides net). intros ss. induction ss as [|s ss IH]; intros S; [reflexivity|]. cbn [map]. unfold pairs_by. cbn [flat_map]. fold (pairs_by (innerb (recolour f net)) (map (fun s : side => (option_map f (fst s), option_map f (snd s))) ss)). fold (pairs_by (innerb net) ss).
  rewrite IH by (intros; apply S; right; assumption). destruct s as [[a|] [b|]]; cbn [option_map fst snd app]; try reflexivity.
  destruct (S a b (or_introl eq_refl)) as [Ha Hb]. rewrite !I by assumption. destruct (innerb net a || innerb net b); reflexivity.
Qed.
Lemma total_recolour f net : keeps_apart net f -> total_cost (recolour f net) = sum_by f (counted_pairs net).
Proof. intros K. unfold total_cost. rewrite (counted_recolour f net K). unfold sum_by. rewrite map_map. reflexivity. Qed.
Lemma recolour_id net : recolour (fun c => c) net = net.
Proof.
  unfold recolour. induction net as [|nd r IH]; [reflexivity|]. cbn. rewrite IH. f_equal. destruct nd as [[[a|] [b|]] [[c|] [d|]]]; reflexivity.
Qed.

Lemma sum_nonneg f ps : 0 <= sum_by f ps.
Proof. induction ps as [|p ps IH]; [reflexivity|]. rewrite sum_cons. unfold digits_apart at 1. pose proof (len_nonneg (filter (fun i => xorb (Z.testbit (f (fst p)) (Z.of_nat i)) (Z.testbit (f (snd p)) (Z.of_nat i))) (seq 0 (Z.to_nat (Z.log2 (Z.max (f (fst p)) (f (snd p))) + 1))))). lia. Qed.
Lemma sum_atleast f ps : (forall p, In p ps -> 0 <= f (fst p) /\ 0 <= f (snd p) /\ f (fst p) <> f (snd p)) -> len ps <= sum_by f ps.
Proof.
  induction ps as [|p ps IH]; intros H; [unfold len; cbn; lia|]. rewrite len_cons, sum_cons. destruct (H p (or_introl eq_refl)) as (H1 & H2 & H3). pose proof (digits_pos _ _ H1 H2 H3). specialize (IH ltac:(intros; apply H; right; assumption)). lia.
Qed.
Lemma sum_atmost n f ps : (forall p, In p ps -> 0 <= f (fst p) < 2 ^ Z.of_nat n /\ 0 <= f (snd p) < 2 ^ Z.of_nat n) -> sum_by f ps <= Z.of_nat n * len ps.
Proof.
  induction ps as [|p ps IH]; intros H; [unfold len; cbn; lia|]. rewrite len_cons, sum_cons. destruct (H p (or_introl eq_refl)) as (H1 & H2). pose proof (digits_bound n _ _ H1 H2). specialize (IH ltac:(intros; apply H; right; assumption)). lia.
Qed.
Lemma sum_ext f g ps : (forall p, In p ps -> f (fst p) = g (fst p) /\ f (snd p) = g (snd p)) -> sum_by f ps = sum_by g ps.
Proof. induction ps as [|p ps IH]; intros H; [reflexivity|]. rewrite !sum_cons. destruct (H p (or_introl eq_refl)) as [-> ->]. rewrite IH by (intros; apply H; right; assumption). reflexivity. Qed.
Lemma between_in a b x : In x (between a b) <-> a <= x < b.
Proof.
  unfold between. rewrite in_map_iff. split; [intros (i & <- & I); apply in_seq in I; lia|]. intros H. exists (Z.to_nat (x - a)). split; [lia|]. apply in_seq. lia.
Qed.
Lemma zip_in {A B} (R : A -> B -> Prop) (K : A -> B -> Prop) l m e : Forall2 R l m -> Forall2 K l m -> In e m -> exists p, In p l /\ K p e /\ R p e.
Proof.
  induction 1 as [|x y l m Hr F IH]; intros F2 I; [destruct I|]. inversion F2 as [|? ? ? ? Hk F3]; subst. destruct I as [->|I]; [exists x; cbn; auto|]. destruct (IH F3 I) as (p & G1 & G2). exists p. cbn. auto.
Qed.
Lemma map_eq_forall2 {A B C} (f : A -> C) (g : B -> C) l : forall m, map g m = map f l -> Forall2 (fun p e => g e = f p) l m.
Proof. induction l as [|x l IH]; intros [|y m] E; cbn in E; try discriminate; constructor; [congruence|apply IH; congruence]. Qed.
Lemma pair_eqb_spec p q : reflect (p = q) (pair_eqb p q).
Proof. destruct p as [a b], q as [c d]. unfold pair_eqb. cbn. destruct (Z.eqb_spec a c) as [->|N]; [destruct (Z.eqb_spec b d) as [->|N]|]; cbn; constructor; congruence. Qed.

Lemma nodup_app {A} (l m : list A) : NoDup l -> NoDup m -> (forall x, In x l -> ~ In x m) -> NoDup (l ++ m).
Proof.
  induction 1 as [|x l Hx Hl IH]; intros Hm D; [exact Hm|]. cbn. constructor; [rewrite in_app_iff; intros [H|H]; [contradiction|apply (D x (or_introl eq_refl) H)]|apply IH; [exact Hm|intros y Hy; apply D; right; exact Hy]].
Qed.

Section Clauses.
  Variables (order : list Z -> list Z) (net : network).
  Hypothesis Ho : forall l, Permutation (order l) l.
  Hypothesis Hap : apart (counted_pairs net) = true.
  Hypothesis Hne : counted_pairs net <> [].
  Let all := set_union (input_set net) (output_set net).
  Let N := len all.
  Let L := Z.log2_up N.
  Let ln := Z.to_nat L.
  Let ps := counted_pairs net.
  Let labels := fst (make_labels ln (order all) 0).
  Let top1 := snd (make_labels ln (order all) 0).
  Definition lab (c : Z) : list lit := match dget Z.eqb c labels with Some l => l | None => [] end.

  Lemma all_in c : In c all <-> has_colour net c.
  Proof. unfold all. rewrite union_in, input_set_in, output_set_in. reflexivity. Qed.
  Lemma all_nodup : NoDup all.
  Proof.
    unfold all, set_union. apply nodup_app; [apply set_nodup|apply NoDup_filter, set_nodup|]. intros x H1 H2. apply minus_in in H2. tauto.
  Qed.
  Lemma order_all c : In c (order all) <-> has_colour net c.
  Proof. rewrite <- all_in. split; apply Permutation_in; [apply Ho|symmetry; apply Ho]. Qed.
  Lemma order_nodup : NoDup (order all).
  Proof. eapply Permutation_NoDup; [symmetry; apply Ho|apply all_nodup]. Qed.
  Lemma pair_facts a b : In (a, b) ps -> has_colour net a /\ has_colour net b /\ a <> b.
  Proof.
    intros H. pose proof H as H'. change ps with (pairs_by (innerb net) (sides net)) in H'. apply pairs_in in H'. destruct (sides_colour net _ a b (proj1 H') eq_refl) as [Ha Hb]. split; [exact Ha|]. split; [exact Hb|].
    unfold apart in Hap. rewrite forallb_forall in Hap. apply Hap in H. cbn in H. destruct (Z.eqb_spec a b); [discriminate|assumption].
  Qed.
  Lemma two_colours : exists a b, has_colour net a /\ has_colour net b /\ a <> b.
  Proof. destruct ps as [|[a b] r] eqn:E; [contradiction|]. exists a, b. apply pair_facts. rewrite E. left. reflexivity. Qed.
  Lemma N_two : 2 <= N.
  Proof.
    destruct two_colours as (a & b & Ha & Hb & D). apply all_in in Ha. apply all_in in Hb. unfold N. assert (X : (length [a; b] <= length all)%nat).
    { apply NoDup_incl_length; [repeat constructor; cbn; intuition congruence|]. intros x [<-|[<-|[]]]; assumption. }
    unfold len. cbn in X. lia.
  Qed.
  Lemma L_pos : 0 < L. Proof. pose proof N_two. unfold L. apply Z.log2_up_pos. lia. Qed.
  Lemma N_fits : N <= 2 ^ L. Proof. pose proof N_two. unfold L. apply Z.log2_up_spec. lia. Qed.
  Lemma ln_L : Z.of_nat ln = L. Proof. pose proof L_pos. unfold ln. lia. Qed.
  Lemma labels_facts : map fst labels = order all /\ 0 <= top1 /\ forall c l, In (c, l) labels -> length l = ln /\ Forall (lit_ok top1) l /\ Forall (fun v => 0 < v) l.
  Proof.
    pose proof (make_labels_facts ln (order all) 0 ltac:(lia)) as H. unfold labels, top1. destruct (make_labels ln (order all) 0) as [ls t]. cbn [fst snd]. destruct H as (H1 & H2 & H3).
    split; [exact H2|]. split; [|exact H3]. pose proof (len_nonneg (order all)). nia.
  Qed.
  Lemma lab_in c l : In (c, l) labels <-> has_colour net c /\ l = lab c.
  Proof.
    destruct labels_facts as (K & _ & _). unfold lab. split.
    - intros H. assert (D : dget Z.eqb c labels = Some l) by (apply (dget_nodup Z.eqb Z.eqb_spec); [rewrite K; apply order_nodup|exact H]). rewrite D. split; [|reflexivity]. apply order_all. rewrite <- K. apply (in_map fst _ _ H).
    - intros [H ->]. destruct (dget Z.eqb c labels) as [l|] eqn:E; [apply (dget_in Z.eqb Z.eqb_spec); exact E|].
      apply (dget_none Z.eqb Z.eqb_spec) in E. exfalso. apply E. rewrite K. apply order_all. exact H.
  Qed.
  Lemma lab_facts c : has_colour net c -> length (lab c) = ln /\ Forall (lit_ok top1) (lab c) /\ Forall (fun v => 0 < v) (lab c).
  Proof. intros H. destruct labels_facts as (_ & _ & F). apply (F c). apply lab_in. auto. Qed.

  (** *** c1 *)
  Lemma unused_some : exists c1, unused_numbers N L labels = Some c1 /\ cnf_ok top1 c1 /\
    forall a, sat a c1 = true <-> forall c, has_colour net c -> value a (lab c) < N.
  Proof.
    set (qs := flat_map (fun c => map (fun l : Z * list lit => (c, snd l)) labels) (between N (Z.shiftl 1 L))).
    assert (Q : forall v l, In (v, l) qs <-> (N <= v < 2 ^ L) /\ exists c, has_colour net c /\ l = lab c).
    { intros v l. unfold qs. rewrite in_flat_map. pose proof L_pos. split.
      - intros (c & Hc & H'). apply between_in in Hc. rewrite shiftl1 in Hc by lia. apply in_map_iff in H'. destruct H' as ([c' l'] & E & I). injection E as <- <-. split; [exact Hc|]. exists c'. cbn. apply lab_in. exact I.
      - intros (Hv & c & Hc & ->). exists v. split; [apply between_in; rewrite shiftl1 by lia; exact Hv|]. apply in_map_iff. exists (c, lab c). split; [reflexivity|]. apply lab_in. auto. }
    assert (T : forall x, In x qs -> exists y, set_not_number (fst x) (snd x) = Some y).
    { intros [v l] I. apply Q in I. destruct I as (Hv & c & Hc & ->). apply set_not_number_some. cbn [fst snd]. unfold len. rewrite (proj1 (lab_facts c Hc)), ln_L. lia. }
    destruct (omap_total (fun cl : Z * list lit => set_not_number (fst cl) (snd cl)) qs T) as [c1 [E _]]. exists c1. split; [exact E|].
    pose proof (omap_inv _ _ _ E) as F. 
    assert (G : forall c, In c c1 -> exists v l, In (v, l) qs /\ set_not_number v l = Some c).
    { clear -F. induction F as [|[v l] y xs ys H F IH]; intros c []; [subst y; exists v, l; split; [left; reflexivity|exact H]|]. destruct (IH c H0) as (v' & l' & H1 & H2). exists v', l'. split; [right; exact H1|exact H2]. }
    assert (G' : forall v l, In (v, l) qs -> exists c, In c c1 /\ set_not_number v l = Some c).
    { clear -F. induction F as [|[v l] y xs ys H F IH]; intros v' l' []; [injection H0 as <- <-; exists y; split; [left; reflexivity|exact H]|]. destruct (IH v' l' H0) as (c & H1 & H2). exists c. split; [right; exact H1|exact H2]. }
    split.
    - apply Forall_forall. intros c Hc. destruct (G c Hc) as (v & l & I & S). apply Q in I. destruct I as (_ & k & Hk & ->). eapply set_not_number_ok; [apply (lab_facts k Hk)|exact S].
    - intros a. rewrite sat_forall.
      assert (W : forall v c y, N <= v < 2 ^ L -> has_colour net c -> set_not_number v (lab c) = Some y -> satc a y = true <-> value a (lab c) <> v).
      { intros v c y Hv Hc S. destruct (lab_facts c Hc) as (F1 & F2 & _). rewrite (set_not_number_spec v (lab c) y (Forall_ok_nonzero _ _ F2) S a). unfold len. rewrite F1, ln_L, Z.mod_small by (pose proof N_two; lia). reflexivity. }
      split.
      + intros H c Hc. destruct (Z_lt_le_dec (value a (lab c)) N) as [|Ge]; [assumption|]. exfalso. pose proof (value_bound a (lab c)) as B. unfold len in B. rewrite (proj1 (lab_facts c Hc)), ln_L in B.
        destruct (G' (value a (lab c)) (lab c)) as (y & I & S); [apply Q; split; [lia|exists c; auto]|]. apply H in I. apply (proj1 (W (value a (lab c)) c y ltac:(lia) Hc S) I). reflexivity.
      + intros H y Iy. destruct (G y Iy) as (v & l & I & S). apply Q in I. destruct I as (Hv & c & Hc & ->). apply (W v c y Hv Hc S). specialize (H c Hc). lia.
  Qed.

  (** *** c2 *)
  Lemma pairs_label p : In p (label_pairs labels) <-> exists x y, p = ((x, lab x), (y, lab y)) /\ has_colour net x /\ has_colour net y /\ x < y.
  Proof.
    unfold label_pairs. rewrite in_flat_map. split.
    - intros ([x lx] & I & H). apply in_map_iff in H. destruct H as ([y ly] & <- & J). apply filter_In in J. destruct J as [J Lt]. cbn in Lt. apply Z.ltb_lt in Lt.
      apply lab_in in I. apply lab_in in J. destruct I as [I ->], J as [J ->]. exists x, y. auto.
    - intros (x & y & -> & Hx & Hy & Lt). exists (x, lab x). split; [apply lab_in; auto|]. apply in_map_iff. exists (y, lab y). split; [reflexivity|]. apply filter_In. split; [apply lab_in; auto|]. cbn. apply Z.ltb_lt. exact Lt.
  Qed.
  Lemma pairs_good : Forall (good_pair ln top1) (label_pairs labels).
  Proof. apply Forall_forall. intros p H. apply pairs_label in H. destruct H as (x & y & -> & Hx & Hy & _). split; cbn [fst snd]; (split; [apply lab_facts; assumption|apply lab_facts; assumption]). Qed.
  Let mds := make_differences ln (label_pairs labels) top1.
  Let ds := fst (fst mds).
  Let c2 := snd (fst mds).
  Let top2 := snd mds.
  Lemma diffs : top1 <= top2 /\ cnf_ok top2 c2 /\
    (forall x y, has_colour net x -> has_colour net y -> x < y -> exists d, dget pair_eqb (x, y) ds = Some d /\ length d = ln /\ Forall (lit_ok top2) d /\
       forall a, sat a c2 = true -> values a d = xor_bits (values a (lab x)) (values a (lab y))) /\
    (forall a, sat a c2 = true -> keeps_apart net (fun c => value a (lab c))) /\
    (forall a, keeps_apart net (fun c => value a (lab c)) -> exists b, agree top1 a b /\ sat b c2 = true).
  Proof.
    destruct labels_facts as (_ & T1 & _). pose proof (make_differences_facts ln (label_pairs labels) top1 T1 pairs_good) as F. unfold ds, c2, top2, mds. destruct (make_differences ln (label_pairs labels) top1) as [[ds' c2'] t2]. cbn [fst snd].
    destruct F as (F1 & F2 & F3 & F4 & F5 & F6). split; [exact F1|]. split; [exact F2|]. split; [|split].
    - intros x y Hx Hy Lt. destruct (dget pair_eqb (x, y) ds') as [d|] eqn:E.
      + exists d. split; [reflexivity|]. apply (dget_in pair_eqb pair_eqb_spec) in E. pose proof (proj1 (Forall_forall _ _) F4 _ E) as [G1 G2]. split; [exact G1|]. split; [exact G2|]. intros a Sa.
        destruct (zip_in _ _ _ _ _ (F5 a Sa) (map_eq_forall2 _ _ _ _ F3) E) as (p & Ip & K & R). apply pairs_label in Ip. destruct Ip as (x' & y' & -> & _ & _ & _). cbn [fst snd] in *. injection K as -> ->. apply R.
      + exfalso. apply (dget_none pair_eqb pair_eqb_spec) in E. apply E. rewrite F3. apply in_map_iff. exists ((x, lab x), (y, lab y)). split; [reflexivity|]. apply pairs_label. exists x, y. auto.
    - intros a Sa. assert (D : forall x y, has_colour net x -> has_colour net y -> x < y -> value a (lab x) <> value a (lab y)).
      { intros x y Hx Hy Lt. assert (I : In ((x, lab x), (y, lab y)) (label_pairs labels)) by (apply pairs_label; exists x, y; auto). specialize (F5 a Sa). clear -F5 I.
        induction F5 as [|p e l m [_ R] F IH]; [destruct I|]. destruct I as [->|I]; [exact R|auto]. }
      intros x y Hx Hy E. destruct (Z.lt_trichotomy x y) as [Lt|[Eq|Lt]]; [|exact Eq|]; exfalso; [eapply (D x y)|eapply (D y x)]; eauto.
    - intros a K. apply F6. intros p Ip. apply pairs_label in Ip. destruct Ip as (x & y & -> & Hx & Hy & Lt). cbn [fst snd]. intros E. apply (K x y Hx Hy) in E. lia.
  Qed.
  (** Every variable of a label occurs in a clause. *)
  Lemma differences_mention n p x : forall pairs top, In p pairs -> length (snd (fst p)) = n -> length (snd (snd p)) = n -> (In x (snd (fst p)) \/ In x (snd (snd p))) ->
    exists c, In c (snd (fst (make_differences n pairs top))) /\ In x c.
  Proof.
    induction pairs as [|q pairs IH]; intros top I L1 L2 H; [destruct I|]. destruct q as [a b]. cbn [make_differences]. destruct I as [E|I].
    - subst p. cbn [fst snd] in *. destruct (make_differences n pairs (top + Z.of_nat n)) as [[d c] t]. cbn [fst snd].
      assert (X : exists u v w, In (u, v, w) (combine (combine (snd a) (snd b)) (fresh top n)) /\ (x = u \/ x = v)).
      { assert (Lf : length (fresh top n) = n) by apply fresh_length. revert L1 L2 Lf H. generalize (fresh top n). generalize (snd a). generalize (snd b). clear. intros lb la. revert lb n. induction la as [|u la IH]; intros lb n d; destruct lb as [|v lb], d as [|w d]; cbn [length]; intros L1 L2 L3 H; try lia; [cbn in H; tauto|].
        destruct H as [[<-|H]|[<-|H]]; [exists u, v, w; cbn; auto| |exists u, v, w; cbn; auto|]; (destruct (IH lb (length la) d) as (u' & v' & w' & I' & E'); [lia|lia|lia|auto|]; exists u', v', w'; cbn; auto). }
      destruct X as (u & v & w & I & E). exists [u; v; - w]. split; [|destruct E as [-> | ->]; cbn; auto]. rewrite !in_app_iff. left. left. apply in_flat_map. exists (u, v, w). split; [exact I|]. cbn. auto.
    - destruct (IH (top + Z.of_nat n) I L1 L2 H) as (c & Hc & Hx). destruct (make_differences n pairs (top + Z.of_nat n)) as [[d cs] t]. cbn [fst snd] in *. exists c. split; [rewrite in_app_iff; auto|exact Hx].
  Qed.
  Lemma mentioned c x : has_colour net c -> In x (lab c) -> exists k, In k c2 /\ In x k.
  Proof.
    intros Hc Hx. assert (Y : exists y, has_colour net y /\ y <> c) by (destruct two_colours as (a & b & Ha & Hb & D); destruct (Z.eq_dec a c) as [->|]; [exists b|exists a]; auto).
    destruct Y as (y & Hy & D). unfold c2, mds. destruct (Z.lt_trichotomy c y) as [Lt|[Eq|Lt]]; [|congruence|].
    - apply (differences_mention ln ((c, lab c), (y, lab y))); [apply pairs_label; exists c, y; auto|apply lab_facts; exact Hc|apply lab_facts; exact Hy|cbn; auto].
    - apply (differences_mention ln ((y, lab y), (c, lab c))); [apply pairs_label; exists y, c; auto|apply lab_facts; exact Hy|apply lab_facts; exact Hc|cbn; auto].
  Qed.

  (** *** the counted digits *)
  Lemma counted_spec : exists cb, counted_bits (edge_set net) ds (sides net) = Some cb /\ len cb = L * len ps /\ Forall (lit_ok top2) cb /\
    forall a, sat a c2 = true -> count_true (values a cb) = sum_by (fun c => value a (lab c)) ps.
  Proof.
    assert (G : forall ss, incl ss (sides net) -> exists cb, counted_bits (edge_set net) ds ss = Some cb /\ len cb = L * len (pairs_by (innerb net) ss) /\ Forall (lit_ok top2) cb /\
      forall a, sat a c2 = true -> count_true (values a cb) = sum_by (fun c => value a (lab c)) (pairs_by (innerb net) ss)).
    { induction ss as [|s ss IH]; intros Inc.
      - exists []. split; [reflexivity|]. split; [unfold len; cbn; lia|]. split; [constructor|]. reflexivity.
      - destruct IH as (cb & E & Ln & Ok & Cn); [intros x Hx; apply Inc; right; exact Hx|].
        destruct s as [[a|] [b|]]; cbn [counted_bits pairs_by flat_map app]; fold (pairs_by (innerb net) ss); try (exists cb; repeat (split; [assumption|]); exact Cn).
        assert (I : In (Some a, Some b) (sides net)) by (apply Inc; left; reflexivity). destruct (sides_colour net _ a b I eq_refl) as [Ha Hb]. rewrite !edge_inner by assumption.
        destruct (innerb net a || innerb net b) eqn:Ei; [|replace (negb (innerb net a) && negb (innerb net b)) with true by (destruct (innerb net a), (innerb net b); cbn in *; congruence); exists cb; repeat (split; [assumption|]); exact Cn].
        replace (negb (innerb net a) && negb (innerb net b)) with false by (destruct (innerb net a), (innerb net b); cbn in *; congruence).
        assert (D : a <> b). { apply (pair_facts a b). change ps with (pairs_by (innerb net) (sides net)). unfold pairs_by. apply in_flat_map. exists (Some a, Some b). split; [exact I|]. rewrite Ei. left. reflexivity. }
        destruct diffs as (_ & _ & Look & _).
        assert (X : exists d, dget pair_eqb (if b <? a then (b, a) else (a, b)) ds = Some d /\ length d = ln /\ Forall (lit_ok top2) d /\ forall k, sat k c2 = true -> count_true (values k d) = digits_apart (value k (lab a)) (value k (lab b))).
        { assert (Len : forall c, has_colour net c -> length (lab c) = ln) by (intros c Hc; apply lab_facts; exact Hc).
          destruct (Z.ltb_spec b a); [destruct (Look b a Hb Ha ltac:(lia)) as (d & D1 & D2 & D3 & D4)|destruct (Look a b Ha Hb ltac:(lia)) as (d & D1 & D2 & D3 & D4)]; exists d; repeat (split; [assumption|]); intros k Sk; rewrite (D4 k Sk), xor_digits by (rewrite !values_length, !Len by assumption; reflexivity); [apply digits_comm|reflexivity]. }
        destruct X as (d & -> & Ld & Od & Cd). cbn [obind]. rewrite E. cbn [obind app]. exists (d ++ cb)%list. split; [reflexivity|]. split; [rewrite len_app, len_cons, Ln; unfold len at 1; rewrite Ld, ln_L; lia|]. split; [apply Forall_app; auto|].
        intros k Sk. rewrite values_app, count_true_app, Cd, Cn, sum_cons by exact Sk. reflexivity. }
    exact (G (sides net) (incl_refl _)).
  Qed.
End Clauses.
