(** Proofs about the clauses of optimise_colours. *)
From Coq Require Import ZArith List Bool Lia Permutation.
From Verif Require Import P_Dict P_Benes P_Network P_Network2.
From Verif Require Import Spec_Cnf M_Json M_Dict M_Util P_Cnf P_Util P_Util3 P_Tile M_Network Spec_Network Spec_Colours M_Colours P_Colours.
Import ListNotations.
Open Scope Z_scope.

(** ** The pairs that count, and calculate_cost *)
Definition pairs_by (inner : Z -> bool) (ss : list side) : list (Z * Z) :=
  flat_map (fun s : side => match s with (Some a, Some b) => if inner a || inner b then [(a, b)] else [] | _ => [] end) ss.
Definition apart (ps : list (Z * Z)) : bool := forallb (fun p => negb (fst p =? snd p)) ps.
Definition sum_by (f : Z -> Z) (ps : list (Z * Z)) : Z := fold_right Z.add 0 (map (fun p => digits_apart (f (fst p)) (f (snd p))) ps).

Lemma sum_cons f p ps : sum_by f (p :: ps) = digits_apart (f (fst p)) (f (snd p)) + sum_by f ps.
Proof. reflexivity. Qed.
Lemma pairs_in inner ss a b : In (a, b) (pairs_by inner ss) -> In (Some a, Some b) ss /\ inner a || inner b = true.
Proof.
  unfold pairs_by. rewrite in_flat_map. intros ([[x|] [y|]] & I & H); try (destruct H; fail).
  destruct (inner x || inner y) eqn:E; [|destruct H]. destruct H as [H|[]]. injection H as <- <-. split; assumption.
Qed.
Lemma sides_colour net s a b : In s (sides net) -> s = (Some a, Some b) -> has_colour net a /\ has_colour net b.
Proof.
  intros H ->. unfold sides in H. apply in_flat_map in H. destruct H as (nd & I & H).
  unfold has_colour. rewrite <- !(colours_in net). unfold colours_of. rewrite !present_in. fold (slots net).
  destruct H as [H|[H|[]]]; split; apply slots_in; exists nd; (split; [exact I|]); rewrite H; cbn; auto.
Qed.

Lemma add_costs_spec middle ss : (forall a b, In (Some a, Some b) ss -> 0 <= a /\ 0 <= b) -> forall k,
  add_costs middle ss k = (let ps := pairs_by (fun c => mem c middle) ss in if apart ps then Some (k + sum_by (fun c => c) ps) else None).
Proof.
  induction ss as [|s ss IH]; intros Nn k; [cbn; f_equal; lia|]. cbn zeta.
  assert (Nn' : forall a b, In (Some a, Some b) ss -> 0 <= a /\ 0 <= b) by (intros a b H; apply Nn; right; exact H). specialize (IH Nn'). cbn zeta in IH.
  destruct s as [[a|] [b|]]; cbn [add_costs pairs_by flat_map app]; fold (pairs_by (fun c => mem c middle) ss); try apply IH.
  destruct (mem a middle || mem b middle); cbn [app]; [|apply IH]. destruct (Nn a b (or_introl eq_refl)) as [Ha Hb]. rewrite (pop_count_lxor a b Ha Hb).
  cbn [apart forallb fst snd]. destruct (Z.eqb_spec a b) as [E|E]; cbn [negb andb obind]; [reflexivity|]. rewrite IH. fold (apart (pairs_by (fun c => mem c middle) ss)). destruct (apart _); [|reflexivity]. rewrite sum_cons. cbn [fst snd]. f_equal. lia.
Qed.
Lemma pairs_ext i j ss : (forall a b, In (Some a, Some b) ss -> i a || i b = j a || j b) -> pairs_by i ss = pairs_by j ss.
Proof.
  induction ss as [|s ss IH]; intros H; [reflexivity|]. cbn [pairs_by flat_map]. fold (pairs_by i ss) (pairs_by j ss). rewrite IH by (intros; apply H; right; assumption).
  destruct s as [[a|] [b|]]; try reflexivity. rewrite (H a b (or_introl eq_refl)). reflexivity.
Qed.
Lemma innerb_iff net c : innerb net c = true <-> 0 < consumed net c /\ 0 < produced net c.
Proof. unfold innerb. rewrite andb_true_iff, !Z.ltb_lt. reflexivity. Qed.
Lemma middle_inner net c : mem c (set_inter (input_set net) (output_set net)) = innerb net c.
Proof. apply eq_iff_eq_true. rewrite mem_in, inter_in, input_set_in, output_set_in, innerb_iff. reflexivity. Qed.
Lemma cost_spec net : (forall c, has_colour net c -> 0 <= c) ->
  calculate_cost net = if apart (counted_pairs net) then Some (total_cost net) else None.
Proof.
  intros Nn. unfold calculate_cost. rewrite add_costs_spec; [|intros a b H; destruct (sides_colour net _ a b H eq_refl); auto]. cbn zeta.
  rewrite (pairs_ext (fun c => mem c (set_inter (input_set net) (output_set net))) (innerb net)) by (intros; rewrite !middle_inner; reflexivity). reflexivity.
Qed.
Definition edge_set (net : network) : list Z := (set_minus (input_set net) (output_set net) ++ set_minus (output_set net) (input_set net))%list.
Lemma edge_inner net c : has_colour net c -> mem c (edge_set net) = negb (innerb net c).
Proof.
  intros H. apply eq_iff_eq_true. rewrite mem_in, negb_true_iff, <- not_true_iff_false, innerb_iff. unfold edge_set. rewrite in_app_iff, !minus_in, input_set_in, output_set_in. unfold has_colour in H. lia.
Qed.

(** ** The labels *)
Lemma make_labels_facts n cols : forall top, 0 <= top ->
  let '(ls, top') := make_labels n cols top in
  top' = top + Z.of_nat n * len cols /\ map fst ls = cols /\
  forall c l, In (c, l) ls -> length l = n /\ Forall (lit_ok top') l /\ Forall (fun v => 0 < v) l.
Proof.
  induction cols as [|c cols IH]; intros top Ht; cbn [make_labels].
  - split; [unfold len; cbn; lia|]. split; [reflexivity|]. intros c l [].
  - specialize (IH (top + Z.of_nat n) ltac:(lia)). destruct (make_labels n cols (top + Z.of_nat n)) as [ls top']. destruct IH as (E & K & F). rewrite len_cons. pose proof (len_nonneg cols).
    split; [lia|]. split; [cbn; f_equal; exact K|]. intros d l [H'|H'].
    + injection H' as <- <-. rewrite fresh_length. split; [reflexivity|]. split; [apply fresh_ok; nia|]. apply Forall_forall. intros v Hv. apply fresh_In in Hv. lia.
    + apply F in H'. exact H'.
Qed.
Lemma make_labels_assign n f cols : (forall c, In c cols -> 0 <= f c < 2 ^ Z.of_nat n) -> forall top a, 0 <= top ->
  exists b, agree top a b /\ forall c l, In (c, l) (fst (make_labels n cols top)) -> value b l = f c.
Proof.
  induction cols as [|c cols IH]; intros Hf top a Ht; cbn [make_labels].
  - exists a. split; [apply agree_refl|]. intros c l [].
  - set (a0 := upds a top (get_bits (f c) n)). destruct (IH ltac:(intros; apply Hf; right; assumption) (top + Z.of_nat n) a0 ltac:(lia)) as (b & A & V).
    destruct (make_labels n cols (top + Z.of_nat n)) as [ls top'] eqn:E. exists b. split; [eapply agree_trans; [apply (upds_agree a top (get_bits (f c) n))|]; eapply agree_mono; [|exact A]; lia|].
    intros d l [H|H]; cbn [fst] in *; [|apply V; exact H]. injection H as <- <-.
    rewrite <- (value_agree (top + Z.of_nat n) a0 b) by (auto; apply fresh_ok; lia). unfold value. rewrite <- (get_bits_length (f c) n) at 1. unfold a0. rewrite upds_values by exact Ht.
    rewrite num_get_bits. apply Z.mod_small. apply Hf. left. reflexivity.
Qed.

(** ** The differences *)
Definition good_pair (n : nat) (top : Z) (p : (Z * list lit) * (Z * list lit)) : Prop :=
  (length (snd (fst p)) = n /\ Forall (lit_ok top) (snd (fst p))) /\ (length (snd (snd p)) = n /\ Forall (lit_ok top) (snd (snd p))).
Definition bit_clauses (la lb d : list lit) : cnf :=
  flat_map (fun x : lit * lit * lit => difference_bit (fst (fst x)) (snd (fst x)) (snd x)) (combine (combine la lb) d).
Lemma difference_bit_sat a x y d : x <> 0 -> y <> 0 -> d <> 0 -> sat a (difference_bit x y d) = eqb (evl a d) (xorb (evl a x) (evl a y)).
Proof.
  intros Hx Hy Hd. unfold difference_bit. rewrite !sat_cons, sat_nil, !satc_cons, !satc_nil, !evl_neg by assumption. destruct (evl a x), (evl a y), (evl a d); reflexivity.
Qed.
Lemma bit_clauses_sat a : forall la lb d, length la = length d -> length lb = length d -> Forall nonzero la -> Forall nonzero lb -> Forall nonzero d ->
  sat a (bit_clauses la lb d) = true <-> values a d = xor_bits (values a la) (values a lb).
Proof.
  induction la as [|x la IH]; intros [|y lb] [|z d] L1 L2 Na Nb Nd; cbn in L1, L2; try discriminate; [cbn; tauto|].
  inversion Na; inversion Nb; inversion Nd; subst. unfold bit_clauses. cbn [combine flat_map fst snd]. fold (bit_clauses la lb d). rewrite sat_app, andb_true_iff, difference_bit_sat by assumption.
  rewrite IH by (assumption || congruence). unfold values, xor_bits. cbn [map combine fst snd]. rewrite eqb_true_iff. split; [intros [-> ->]; reflexivity|intros [= E1 E2]; split; assumption].
Qed.
Lemma true_bit bs : existsb (fun b => b) bs = true <-> 0 < count_true bs.
Proof. induction bs as [|b bs IH]; [cbn; split; [discriminate|lia]|]. cbn [existsb count_true]. pose proof (count_true_bound bs). destruct b; cbn [orb Z.b2z]; [split; [lia|reflexivity]|]. rewrite IH. lia. Qed.
Lemma satc_values a c : satc a c = existsb (fun b => b) (values a c).
Proof. unfold satc, values. induction c as [|l c IH]; [reflexivity|]. cbn. rewrite IH. reflexivity. Qed.
Lemma block_sat a n la lb d : length la = n -> length lb = n -> length d = n -> Forall nonzero la -> Forall nonzero lb -> Forall nonzero d ->
  sat a (bit_clauses la lb d ++ [d])%list = true <-> values a d = xor_bits (values a la) (values a lb) /\ value a la <> value a lb.
Proof.
  intros L1 L2 L3 Na Nb Nd. rewrite sat_app, andb_true_iff, bit_clauses_sat by (assumption || congruence). rewrite sat_cons, sat_nil, andb_true_r, satc_values, true_bit.
  split; intros [E H]; (split; [exact E|]); rewrite E, xor_digits in * by (rewrite !values_length; congruence); fold (value a la) (value a lb) in *.
  - intros Eq. rewrite Eq, digits_self in H by apply value_nonneg. lia.
  - apply digits_pos; [apply value_nonneg|apply value_nonneg|exact H].
Qed.

Lemma make_differences_facts n : forall pairs top, 0 <= top -> Forall (good_pair n top) pairs ->
  let '(ds, cs, top') := make_differences n pairs top in
  top <= top' /\ cnf_ok top' cs /\ map fst ds = map (fun p => (fst (fst p), fst (snd p))) pairs /\
  Forall (fun e => length (snd e) = n /\ Forall (lit_ok top') (snd e)) ds /\
  (forall a, sat a cs = true -> Forall2 (fun p e => values a (snd e) = xor_bits (values a (snd (fst p))) (values a (snd (snd p))) /\ value a (snd (fst p)) <> value a (snd (snd p))) pairs ds) /\
  (forall a, (forall p, In p pairs -> value a (snd (fst p)) <> value a (snd (snd p))) -> exists b, agree top a b /\ sat b cs = true).
Proof.
  induction pairs as [|[[ca la] [cb lb]] pairs IH]; intros top Ht G; cbn [make_differences].
  - split; [lia|]. split; [constructor|]. split; [reflexivity|]. split; [constructor|]. split; [constructor|]. intros a _. exists a. split; [apply agree_refl|reflexivity].
  - inversion G as [|? ? ((L1 & O1) & L2 & O2) G']; subst. cbn [fst snd] in *. set (m := length la) in *.
    assert (G2 : Forall (good_pair m (top + Z.of_nat m)) pairs).
    { eapply Forall_impl; [|exact G']. intros p ((X1 & X2) & X3 & X4). repeat split; auto; eapply Forall_ok_mono; try eassumption; lia. }
    specialize (IH (top + Z.of_nat m) ltac:(lia) G2). destruct (make_differences m pairs (top + Z.of_nat m)) as [[ds cs] top']. destruct IH as (T & C & K & D & S1 & S2). fold (bit_clauses la lb (fresh top m)).
    assert (Od : Forall (lit_ok (top + Z.of_nat m)) (fresh top m)) by (apply fresh_ok; lia).
    assert (Oa : Forall (lit_ok (top + Z.of_nat m)) la) by (eapply Forall_ok_mono; [|exact O1]; lia).
    assert (Ob : Forall (lit_ok (top + Z.of_nat m)) lb) by (eapply Forall_ok_mono; [|exact O2]; lia).
    assert (BS : forall a, sat a (bit_clauses la lb (fresh top m) ++ [fresh top m])%list = true <-> values a (fresh top m) = xor_bits (values a la) (values a lb) /\ value a la <> value a lb).
    { intros a. apply (block_sat a m); try reflexivity; try apply fresh_length; try exact L2; eapply Forall_ok_nonzero; eassumption. }
    assert (BO : cnf_ok (top + Z.of_nat m) (bit_clauses la lb (fresh top m) ++ [fresh top m])%list).
    { apply cnf_ok_app; [|apply Forall_cons; [exact Od|apply Forall_nil]]. apply Forall_forall. intros c Hc. unfold bit_clauses in Hc. apply in_flat_map in Hc. destruct Hc as ([[x y] z] & Hi & Hc). cbn [fst snd] in Hc.
      assert (Iz : In z (fresh top m)) by (eapply in_combine_r; exact Hi). apply in_combine_l in Hi. assert (Ix : In x la) by (eapply in_combine_l; exact Hi). assert (Iy : In y lb) by (eapply in_combine_r; exact Hi).
      rewrite Forall_forall in Oa, Ob, Od. pose proof (Oa x Ix) as Px. pose proof (Ob y Iy) as Py. pose proof (Od z Iz) as Pz.
      destruct Hc as [<-|[<-|[<-|[<-|[]]]]]; repeat first [assumption | apply Forall_nil | apply Forall_cons | apply lit_ok_opp]. }
    split; [lia|]. split; [apply cnf_ok_app; [eapply cnf_ok_mono; [|exact BO]; lia|exact C]|]. split; [cbn; f_equal; exact K|].
    split; [constructor; [cbn; split; [apply fresh_length|eapply Forall_ok_mono; [|exact Od]; lia]|exact D]|]. split.
    + intros a H. rewrite sat_app, andb_true_iff in H. destruct H as [H1 H2]. constructor; [apply BS; exact H1|apply S1; exact H2].
    + intros a H. set (a0 := upds a top (xor_bits (values a la) (values a lb))).
      assert (Lx : length (xor_bits (values a la) (values a lb)) = m) by (unfold xor_bits; rewrite map_length, combine_length, !values_length; lia).
      assert (A0 : agree top a a0) by apply upds_agree.
      assert (Vd : values a0 (fresh top m) = xor_bits (values a la) (values a lb)) by (pose proof (upds_values a top (xor_bits (values a la) (values a lb)) Ht) as X; rewrite Lx in X; exact X).
      destruct (S2 a0) as (b & A & Sb).
      { intros p Hp. pose proof (proj1 (Forall_forall _ _) G' p Hp) as ((_ & X2) & _ & X4). rewrite <- (value_agree top a a0), <- (value_agree top a a0) by assumption. apply H. right. exact Hp. }
      exists b. split; [eapply agree_trans; [exact A0|]; eapply agree_mono; [|exact A]; lia|]. rewrite sat_app, Sb, andb_true_r. rewrite <- (sat_agree (top + Z.of_nat m) a0 b) by assumption. apply BS.
      rewrite Vd, <- !(values_agree top a a0), <- !(value_agree top a a0) by assumption. split; [reflexivity|]. apply (H ((ca, la), (cb, lb))). left. reflexivity.
Qed.
