(** Proofs about optimise_colours: the loop and the result. *)
From Coq Require Import ZArith List Bool Lia Permutation.
From Verif Require Import P_Dict P_Benes P_Network P_Network2.
From Verif Require Import Spec_Cnf M_Json M_Dict M_Util P_Cnf P_Util P_Util3 P_Tile P_Allocate P_Grid P_GridOk M_Network Spec_Network Spec_Colours M_Colours P_Colours P_Colours2 P_Colours3.
Import ListNotations.
Open Scope Z_scope.

Definition asg (m : list lit) : assignment := fun v => existsb (Z.eqb v) m.

Lemma omap_exact {A B} (f : A -> option B) (g : A -> B) l : (forall x, In x l -> f x = Some (g x)) -> omap f l = Some (map g l).
Proof. induction l as [|x l IH]; intros H; [reflexivity|]. cbn [omap map]. rewrite (H x (or_introl eq_refl)), IH by (intros; apply H; right; assumption). reflexivity. Qed.

Section Loop.
  Variable solver : cnf -> option (list lit).
  Hypothesis Hs : truthful solver.
  Variables (base : cnf) (result : list lit).
  Variable t : Z.
  Hypothesis Hr : Forall (lit_ok t) result.
  Definition good_model (m : list lit) : Prop :=
    NoDup (map Z.abs m) /\ (forall c l, In c base -> In l c -> In l m \/ In (- l) m) /\ sat (asg m) base = true.
  Lemma between_rev (n : nat) : rev (between 1 (Z.of_nat (S n) + 1)) = Z.of_nat (S n) :: rev (between 1 (Z.of_nat n + 1)).
  Proof.
    unfold between. replace (Z.to_nat (Z.of_nat (S n) + 1 - 1)) with (S n) by lia. replace (Z.to_nat (Z.of_nat n + 1 - 1)) with n by lia.
    rewrite seq_S, map_app, rev_app_distr. cbn [map rev app]. f_equal. lia.
  Qed.
  Lemma improve_spec : forall (n : nat) cs last model, incl base cs -> Forall (Forall nonzero) cs ->
    (forall a, sat a cs = true <-> sat a base = true /\ value a result <= Z.of_nat n) -> Z.of_nat n < 2 ^ len result ->
    exists r, improve solver cs result (rev (between 1 (Z.of_nat n + 1))) last model = Some r /\
      ((n = O /\ r = (model, last)) \/
       (n <> O /\ (forall a, sat a base = true -> Z.of_nat n < value a result) /\ r = (model, Z.of_nat n)) \/
       (exists m b, 2 <= b <= Z.of_nat n /\ r = (Some m, b - 1) /\ good_model m /\ value (asg m) result = b /\ forall a, sat a base = true -> b <= value a result) \/
       (exists m, n <> O /\ r = (Some m, 1) /\ good_model m /\ value (asg m) result <= 1)).
  Proof.
    induction n as [|n IH]; intros cs last model Inc Nz Inv Fit.
    - exists (model, last). split; [reflexivity|]. left. split; reflexivity.
    - rewrite between_rev. cbn [improve]. pose proof (Hs cs Nz) as Ha. destruct (solver cs) as [m|].
      + destruct Ha as (H1 & H2 & H3). assert (G : good_model m).
        { split; [exact H1|]. split; [intros c l Hc; apply H2; apply Inc; exact Hc|]. apply (Inv (asg m)). exact H3. }
        pose proof (proj2 (proj1 (Inv (asg m)) H3)) as Vm.
        destruct (proj2 (set_not_number_some (Z.of_nat (S n)) result) Fit) as [c Ec]. rewrite Ec. cbn [obind].
        pose proof (set_not_number_spec _ _ _ (Forall_ok_nonzero _ _ Hr) Ec) as Sc.
        destruct (IH (cs ++ [c])%list (Z.of_nat (S n)) (Some m)) as (r & Er & D).
        * intros x Hx. apply in_app_iff. left. apply Inc. exact Hx.
        * apply Forall_app. split; [exact Nz|]. constructor; [|constructor]. eapply Forall_ok_nonzero. eapply set_not_number_ok; [exact Hr|exact Ec].
        * intros a. rewrite sat_app, andb_true_iff, Inv, sat_cons, sat_nil, andb_true_r, Sc. rewrite Z.mod_small by lia. split; [intros [[X1 X2] X3]; split; [exact X1|lia]|intros [X1 X2]; split; [split; [exact X1|lia]|lia]].
        * lia.
        * exists r. split; [exact Er|]. destruct D as [(-> & ->)|[(Nn & Un & ->)|[(m' & b & Hb & -> & G' & V' & M')|(m' & Nn & -> & G' & V')]]].
          -- right. right. right. exists m. auto.
          -- right. right. left. exists m, (Z.of_nat (S n)). split; [lia|]. split; [repeat f_equal; lia|]. split; [exact G|]. pose proof (Un (asg m) (proj2 (proj2 G))).
             split; [lia|]. intros a Ha. apply Un in Ha. lia.
          -- right. right. left. exists m', b. split; [lia|]. auto.
          -- right. right. right. exists m'. auto.
      + eexists. split; [reflexivity|]. right. left. split; [discriminate|]. split; [|reflexivity]. intros a Sa. destruct (Z_le_gt_dec (value a result) (Z.of_nat (S n))) as [Le|Gt]; [|lia].
        specialize (Ha a). rewrite (proj2 (Inv a) (conj Sa Le)) in Ha. discriminate.
  Qed.
End Loop.

(** ** Reading a model *)
Lemma model_values_map m : NoDup (map Z.abs m) -> model_values m = map (fun l => (Z.abs l, 0 <? l)) m.
Proof.
  intros H. unfold model_values. assert (G : forall d, NoDup (map fst d ++ map Z.abs m) -> fold_left (fun d l => dset Z.eqb (Z.abs l) (0 <? l) d) m d = (d ++ map (fun l => (Z.abs l, 0 <? l)) m)%list).
  { clear H. induction m as [|l m IH]; intros d H; [cbn; rewrite app_nil_r; reflexivity|]. cbn [fold_left map]. rewrite (dset_fresh Z.eqb Z.eqb_spec).
    - rewrite IH; [rewrite <- app_assoc; reflexivity|]. rewrite map_app, <- app_assoc. exact H.
    - intros I. cbn in H. apply NoDup_remove_2 in H. apply H. apply in_app_iff. left. exact I. }
  apply (G []). exact H.
Qed.
Lemma model_values_get m l : NoDup (map Z.abs m) -> 0 < l -> In l m \/ In (- l) m -> dget Z.eqb l (model_values m) = Some (evl (asg m) l).
Proof.
  intros N P H. rewrite (model_values_map m N). apply (dget_nodup Z.eqb Z.eqb_spec).
  - rewrite map_map. exact N.
  - apply in_map_iff. assert (V : evl (asg m) l = existsb (Z.eqb l) m) by (unfold evl, asg; destruct (Z.ltb_spec 0 l); [reflexivity|lia]). rewrite V.
    destruct H as [H|H].
    + exists l. split; [|exact H]. rewrite Z.abs_eq by lia. f_equal. rewrite (proj2 (Z.ltb_lt 0 l) P). symmetry. apply existsb_exists. exists l. split; [exact H|apply Z.eqb_refl].
    + exists (- l). split; [|exact H]. rewrite Z.abs_opp, Z.abs_eq by lia. f_equal. replace (0 <? - l) with false by (symmetry; apply Z.ltb_ge; lia). symmetry. destruct (existsb (Z.eqb l) m) eqn:E; [|reflexivity].
      exfalso. apply existsb_exists in E. destruct E as (x & Ix & Ex). apply Z.eqb_eq in Ex. subst x.
      assert (X : forall m', In l m' -> In (- l) m' -> ~ NoDup (map Z.abs m')).
      { clear -P. induction m' as [|y m' IH]; intros I1 I2 D; [destruct I1|]. cbn in D. inversion D as [|? ? D1 D2]; subst. destruct I1 as [->|I1], I2 as [E|I2]; [lia| | |exact (IH I1 I2 D2)].
        - apply D1. replace (Z.abs l) with (Z.abs (- l)) by lia. apply in_map. exact I2.
        - subst y. apply D1. replace (Z.abs (- l)) with (Z.abs l) by lia. apply in_map. exact I1. }
      exact (X m Ix H N).
Qed.

  (** A numbering in which the one counted pair differs in one digit. *)
  Fixpoint place (c : Z) (l : list Z) : Z := match l with [] => 0 | x :: r => if c =? x then 0 else 1 + place c r end.
  Lemma place_facts l : (forall c, In c l -> 0 <= place c l < len l) /\ forall c d, In c l -> In d l -> place c l = place d l -> c = d.
  Proof.
    induction l as [|x l [IH1 IH2]]; [split; intros c; [intros []|intros d []]|].
    assert (P : forall c, In c l -> 0 <= place c l) by (intros c Hc; apply IH1; exact Hc).
    split.
    - intros c I. cbn [place]. rewrite len_cons. pose proof (len_nonneg l). destruct (Z.eqb_spec c x) as [->|D]; [lia|]. destruct I as [E|I]; [congruence|]. apply IH1 in I. lia.
    - intros c d I J. cbn [place]. destruct (Z.eqb_spec c x) as [->|Dc], (Z.eqb_spec d x) as [->|Dd]; intros E; auto.
      + destruct J as [J|J]; [congruence|]. apply P in J. lia.
      + destruct I as [I|I]; [congruence|]. apply P in I. lia.
      + destruct I as [I|I]; [congruence|]. destruct J as [J|J]; [congruence|]. apply IH2; auto. lia.
  Qed.

Section Result.
  Variables (solver : cnf -> option (list lit)) (order : list Z -> list Z) (net : network).
  Hypothesis Hs : truthful solver.
  Hypothesis Ho : forall l, Permutation (order l) l.
  Hypothesis Hnn : forall c, has_colour net c -> 0 <= c.
  Hypothesis Hap : apart (counted_pairs net) = true.
  Hypothesis Hne : counted_pairs net <> [].
  Let all := set_union (input_set net) (output_set net).
  Let N := len all.
  Let L := Z.log2_up N.
  Let k := len (counted_pairs net).
  Let R := Z.log2_up (L * k + 1).
  Let start := total_cost net.
  Hypothesis Hbig : 2 <= L * k.

  Lemma base_exists : exists c1 ds c2 top2 cb c3 top3,
    let '(labels, top1) := make_labels (Z.to_nat L) (order all) 0 in
    unused_numbers N L labels = Some c1 /\ make_differences (Z.to_nat L) (label_pairs labels) top1 = (ds, c2, top2) /\
    counted_bits (edge_set net) ds (sides net) = Some cb /\ len cb = L * k /\ 0 <= top2 /\
    get_popcount cb (fresh top2 (Z.to_nat R)) (top2 + R) = Some (c3, top3) /\
    (exists t, cnf_ok t (c1 ++ c2 ++ c3)) /\
    (forall a, sat a (c1 ++ c2 ++ c3) = true -> numbers_to net N (fun c => value a (lab order net c)) /\ value a (fresh top2 (Z.to_nat R)) = sum_by (fun c => value a (lab order net c)) (counted_pairs net)) /\
    (forall f, numbers_to net N f -> exists a, sat a (c1 ++ c2 ++ c3) = true /\ value a (fresh top2 (Z.to_nat R)) = sum_by f (counted_pairs net)) /\
    (forall c x, has_colour net c -> In x (lab order net c) -> exists cl, In cl (c1 ++ c2 ++ c3) /\ In x cl).
  Proof.
    destruct (unused_some order net Ho Hap Hne) as (c1 & E1 & O1 & S1). destruct (diffs order net Ho) as (T12 & O2 & _ & S2 & C2). destruct (counted_spec order net Ho Hap Hne) as (cb & Eb & Lb & Ob & Sb).
    pose proof (mentioned order net Ho Hap Hne) as Men. pose proof (labels_facts order net) as (Lk & Lt & Lf). pose proof (fun c => lab_facts order net Ho c) as Lab. pose proof (lab_in order net Ho) as LabI.
    pose proof (ln_L order net Hap Hne) as LL. pose proof (N_fits order net Hap Hne) as NF.
    fold all in E1, O1, S1, T12, O2, S2, C2, Eb, Lb, Ob, Sb, Men, Lk, Lt, Lf, Lab, LabI, LL, NF. fold N in E1, O1, S1, T12, O2, S2, C2, Eb, Lb, Ob, Sb, Men, Lk, Lt, Lf, Lab, LabI, LL, NF. fold L in E1, O1, S1, T12, O2, S2, C2, Eb, Lb, Ob, Sb, Men, Lk, Lt, Lf, Lab, LabI, LL, NF. fold k in E1, O1, S1, T12, O2, S2, C2, Eb, Lb, Ob, Sb, Men, Lk, Lt, Lf, Lab, LabI, LL, NF.
    pose proof (make_labels_assign (Z.to_nat L)) as MA.
    destruct (make_labels (Z.to_nat L) (order all) 0) as [labels top1] eqn:El. cbn [fst snd] in *.
    destruct (make_differences (Z.to_nat L) (label_pairs labels) top1) as [[ds c2] top2]. cbn [fst snd] in *.
    assert (R0 : 0 <= R) by (unfold R; apply Z.log2_up_nonneg).
    assert (RF : L * k + 1 <= 2 ^ R) by (unfold R; apply Z.log2_up_spec; lia).
    set (result := fresh top2 (Z.to_nat R)) in *.
    assert (Lr : len result = R) by (unfold result, len; rewrite fresh_length; lia).
    assert (Or : Forall (lit_ok (top2 + R)) result) by (apply fresh_ok; lia).
    destruct (popcount_fuel_ok (length cb) cb result (top2 + R)) as (c3 & top3 & E3 & T3 & O3 & S3 & C3).
    { lia. } { unfold len in Lb. lia. } { lia. } { rewrite Lr, Lb. reflexivity. } { eapply Forall_ok_mono; [|exact Ob]. lia. } { exact Or. }
    exists c1, ds, c2, top2, cb, c3, top3. split; [exact E1|]. split; [reflexivity|]. split; [exact Eb|]. split; [exact Lb|]. split; [lia|]. split; [exact E3|].
    split; [exists top3; apply cnf_ok_app; [eapply cnf_ok_mono; [|exact O1]; lia|]; apply cnf_ok_app; [eapply cnf_ok_mono; [|exact O2]; lia|exact O3]|].
    fold result. split; [|split].
    - intros a Sa. rewrite !sat_app, !andb_true_iff in Sa. destruct Sa as (A1 & A2 & A3). split; [|rewrite (S3 a A3); apply Sb; exact A2].
      split; [apply S2; exact A2|]. intros c Hc. split; [apply value_nonneg|apply (proj1 (S1 a) A1); exact Hc].
    - intros f [Kf Bf].
      destruct (MA f (order all)) with (top := 0) (a := fun _ : Z => false) as (a0 & _ & V0); [intros c Hc; apply (proj1 (order_all order net Ho c)) in Hc; apply Bf in Hc; rewrite LL; lia|lia|]. rewrite El in V0. cbn [fst] in V0.
      assert (W0 : forall c, has_colour net c -> value a0 (lab order net c) = f c) by (intros c Hc; apply V0; apply LabI; auto).
      destruct (C2 a0) as (a1 & A1 & S2').
      { intros c d Hc Hd E. rewrite !W0 in E by assumption. apply Kf; assumption. }
      assert (W1 : forall c, has_colour net c -> value a1 (lab order net c) = f c).
      { intros c Hc. rewrite <- (value_agree top1 a0 a1) by (auto; apply (Lab c Hc)). apply W0. exact Hc. }
      set (s := sum_by f (counted_pairs net)).
      assert (Cs : count_true (values a1 cb) = s). { rewrite (Sb a1 S2'). apply sum_ext. intros [x y] I. cbn [fst snd]. destruct (pair_facts net Hap x y I) as (Hx & Hy & _). rewrite !W1 by assumption. auto. }
      assert (Bs : 0 <= s < 2 ^ R). { pose proof (count_true_bound (values a1 cb)) as B. rewrite Cs in B. unfold len in B. rewrite values_length in B. fold (len cb) in B. rewrite Lb in B. lia. }
      set (a2 := upds a1 top2 (get_bits s (Z.to_nat R))).
      assert (A2 : agree top2 a1 a2) by apply upds_agree.
      assert (V2 : value a2 result = s).
      { unfold value, result, a2. rewrite <- (get_bits_length s (Z.to_nat R)) at 2. rewrite upds_values by lia. rewrite num_get_bits, Z2Nat.id by exact R0. apply Z.mod_small. exact Bs. }
      assert (Cs2 : count_true (values a2 cb) = s) by (rewrite <- (values_agree top2 a1 a2) by assumption; exact Cs).
      destruct (C3 a2) as (a3 & A3 & S3'); [congruence|].
      assert (A13 : agree top2 a1 a3) by (eapply agree_trans; [exact A2|]; eapply agree_mono; [|exact A3]; lia).
      exists a3. split.
      + rewrite !sat_app, !andb_true_iff. split; [|split; [|exact S3']].
        * apply S1. intros c Hc. rewrite <- (value_agree top2 a1 a3) by first [exact A13 | eapply Forall_ok_mono; [|apply (Lab c Hc)]; lia]. rewrite W1 by exact Hc. apply Bf. exact Hc.
        * rewrite <- (sat_agree top2 a1 a3) by assumption. exact S2'.
      + rewrite <- (value_agree (top2 + R) a2 a3) by assumption. exact V2.
    - intros c x Hc Hx. destruct (Men c x Hc Hx) as (cl & I1 & I2). exists cl. split; [|exact I2]. rewrite !in_app_iff. auto.
  Qed.

  Lemma has_n : has_colours net N.
  Proof. exists all. split; [apply all_nodup|]. split; [intros c; apply all_in|reflexivity]. Qed.

  Lemma k_pos : 1 <= k.
  Proof. unfold k. destruct (counted_pairs net) as [|p r]; [contradiction|]. rewrite len_cons. pose proof (len_nonneg r). lia. Qed.
  Lemma sum_k f : keeps_apart net f -> (forall c, has_colour net c -> 0 <= f c) -> k <= sum_by f (counted_pairs net).
  Proof.
    intros K P. apply sum_atleast. intros [x y] I. destruct (pair_facts net Hap x y I) as (Hx & Hy & D). cbn [fst snd]. split; [auto|]. split; [auto|]. intros E. apply D. apply K; assumption.
  Qed.
  Lemma start_sum : start = sum_by (fun c => c) (counted_pairs net).
  Proof. reflexivity. Qed.
  Lemma start_k : k <= start.
  Proof. rewrite start_sum. apply sum_k; [intros c d _ _ E; exact E|exact Hnn]. Qed.

  Lemma finish base m cost : good_model base m -> (forall c x, has_colour net c -> In x (lab order net c) -> exists cl, In cl base /\ In x cl) ->
    keeps_apart net (fun c => value (asg m) (lab order net c)) ->
    (let* cm := colour_map (model_values m) (fst (make_labels (Z.to_nat L) (order all) 0)) in
     let net' := remap_colours net cm in
     let* cost' := calculate_cost net' in
     if cost + 1 =? cost' then Some net' else None) =
    (if cost + 1 =? sum_by (fun c => value (asg m) (lab order net c)) (counted_pairs net) then Some (recolour (fun c => value (asg m) (lab order net c)) net) else None).
  Proof.
    intros (G1 & G2 & _) Men K. set (f := fun c => value (asg m) (lab order net c)) in *.
    pose proof (labels_facts order net) as (Lk & _). pose proof (lab_in order net Ho) as LabI. pose proof (fun c => lab_facts order net Ho c) as Lab.
    pose proof (order_nodup order net Ho) as ND. pose proof (order_all order net Ho) as OA.
    fold all in Lk, LabI, ND, OA. fold N in Lk, LabI. fold L in Lk, LabI. set (labels := fst (make_labels (Z.to_nat L) (order all) 0)) in *.
    assert (CM : colour_map (model_values m) labels = Some (map (fun cl => (fst cl, value (asg m) (snd cl))) labels)).
    { unfold colour_map. apply omap_exact. intros [c l] I. cbn [fst snd]. apply LabI in I. destruct I as [Hc ->].
      assert (E : omap (fun x => dget Z.eqb x (model_values m)) (lab order net c) = Some (values (asg m) (lab order net c))).
      { unfold values. apply omap_exact. intros x Hx. destruct (Lab c Hc) as (_ & _ & P). rewrite Forall_forall in P. destruct (Men c x Hc Hx) as (cl & I1 & I2). apply model_values_get; [exact G1|apply P; exact Hx|apply (G2 cl); assumption]. }
      rewrite E. cbn [obind]. rewrite read_number_num. reflexivity. }
    rewrite CM. cbn [obind]. rewrite (remap_rename net _ f).
    - change (rename f net) with (recolour f net). cbn zeta. rewrite (cost_spec (recolour f net)); [|intros x Hx; apply recolour_has in Hx; destruct Hx as (c & Hc & ->); apply value_nonneg].
      rewrite (total_recolour f net K), (counted_recolour f net K).
      assert (A : apart (map (fun p => (f (fst p), f (snd p))) (counted_pairs net)) = true).
      { unfold apart. rewrite forallb_forall. intros q I. apply in_map_iff in I. destruct I as ([x y] & <- & I). cbn [fst snd]. destruct (pair_facts net Hap x y I) as (Hx & Hy & D). destruct (Z.eqb_spec (f x) (f y)) as [E|E]; [|reflexivity]. exfalso. apply D. apply K; assumption. }
      rewrite A. cbn [obind]. reflexivity.
    - intros c Hc. assert (Hc' : has_colour net c) by (unfold colours_of in Hc; apply present_in in Hc; apply in_app_iff in Hc; destruct Hc as [Hc|Hc]; [left|right]; apply occurs_in; exact Hc). apply (dget_nodup Z.eqb Z.eqb_spec); [rewrite map_map; change (NoDup (map fst labels)); rewrite Lk; exact ND|].
      apply in_map_iff. exists (c, lab order net c). split; [reflexivity|]. apply LabI. auto.
  Qed.

  Lemma one_pair : k = 1 -> exists f, numbers_to net N f /\ sum_by f (counted_pairs net) = 1.
  Proof.
    intros K1. destruct (counted_pairs net) as [|[x y] [|q r]] eqn:E; [contradiction| |unfold k in K1; rewrite !len_cons in K1; pose proof (len_nonneg r); lia].
    assert (I : In (x, y) (counted_pairs net)) by (rewrite E; left; reflexivity). rewrite <- E in Hap. destruct (pair_facts net Hap x y I) as (Hx & Hy & D).
    set (l := x :: y :: filter (fun c => negb (c =? x) && negb (c =? y)) all).
    assert (Il : forall c, In c l <-> has_colour net c).
    { intros c. unfold l. cbn [In]. rewrite filter_In. unfold all. rewrite all_in, andb_true_iff, !negb_true_iff, !Z.eqb_neq. split; [intros [<-|[<-|[H _]]]; assumption|]. intros H. destruct (Z.eq_dec x c); [auto|]. destruct (Z.eq_dec y c); [auto|]. right. right. auto. }
    assert (Nl : NoDup l).
    { unfold l. constructor; [|constructor; [|apply NoDup_filter, all_nodup]].
      - intros [H|H]; [congruence|]. apply filter_In in H. rewrite Z.eqb_refl in H. destruct H; discriminate.
      - intros H. apply filter_In in H. rewrite (Z.eqb_refl y), andb_false_r in H. destruct H; discriminate. }
    assert (Ll : len l = N).
    { unfold N, len. f_equal. apply Permutation_length. apply NoDup_Permutation; [exact Nl|apply all_nodup|]. intros c. rewrite Il. symmetry. apply all_in. }
    destruct (place_facts l) as [P1 P2]. exists (fun c => place c l). split; [split|].
    - intros c d Hc Hd. apply P2; apply Il; assumption.
    - intros c Hc. rewrite <- Ll. apply P1. apply Il. exact Hc.
    - rewrite sum_cons. cbn [fst snd place l]. rewrite !Z.eqb_refl. destruct (Z.eqb_spec y x); [congruence|]. reflexivity.
  Qed.

  Lemma result_spec : start <= 2 ^ R ->
    (k = 1 -> 1 < start -> optimise_colours solver order net = None) /\
    (k <> 1 \/ start = 1 -> exists f, optimise_colours solver order net = Some (recolour f net) /\ keeps_apart net f /\
       ((forall c, f c = c) \/ numbers_to net N f /\ total_cost (recolour f net) < start) /\
       forall g, numbers_to net N g -> total_cost (recolour f net) <= total_cost (recolour g net)).
  Proof.
    intros Hst. destruct base_exists as (c1 & ds & c2 & top2 & cb & c3 & top3 & B).
    pose proof start_k as SK. pose proof k_pos as K0. pose proof (fun m cost => finish (c1 ++ c2 ++ c3) m cost) as Fin.
    destruct (make_labels (Z.to_nat L) (order all) 0) as [labels top1] eqn:El. cbn [fst] in Fin.
    destruct B as (E1 & E2 & Eb & Lb & T2 & E3 & (t & Ok) & Bs & Bc & Men).
    set (base := (c1 ++ c2 ++ c3)%list) in *. set (result := fresh top2 (Z.to_nat R)) in *.
    assert (R0 : 0 <= R) by (unfold R; apply Z.log2_up_nonneg).
    assert (Lr : len result = R) by (unfold result, len; rewrite fresh_length; lia).
    assert (Or : Forall (lit_ok (top2 + R)) result) by (apply fresh_ok; lia).
    assert (N2 : 2 <= N) by (apply (N_two order net Hap Hne)).
    destruct (omap_total (fun cost => set_not_number cost result) (between start (2 ^ R))) as (c4 & E4 & _).
    { intros v Iv. apply between_in in Iv. apply set_not_number_some. rewrite Lr. lia. }
    pose proof (omap_inv _ _ _ E4) as F4.
    assert (O4 : Forall (Forall nonzero) c4).
    { clear -F4 Or. induction F4; constructor; auto. eapply Forall_ok_nonzero. eapply set_not_number_ok; [exact Or|eassumption]. }
    assert (S4 : forall a, sat a c4 = true <-> value a result <= start - 1).
    { intros a. pose proof (value_bound a result) as Bv. rewrite Lr in Bv.
      assert (G : forall vs cs, Forall2 (fun x y => set_not_number x result = Some y) vs cs -> (forall v, In v vs -> 0 <= v < 2 ^ R) -> sat a cs = true <-> forall v, In v vs -> value a result <> v).
      { clear -Or Lr. induction 1 as [|v c vs cs E F IH]; intros Hv; [rewrite sat_nil; split; [intros _ v []|reflexivity]|].
        rewrite sat_cons, andb_true_iff, (set_not_number_spec _ _ _ (Forall_ok_nonzero _ _ Or) E a), Lr, Z.mod_small by (apply Hv; left; reflexivity). rewrite IH by (intros; apply Hv; right; assumption).
        split; [intros [H1 H2] w [<-|Hw]; auto|]. intros H. split; [apply H; left; reflexivity|intros w Hw; apply H; right; exact Hw]. }
      rewrite (G _ _ F4) by (intros v Iv; apply between_in in Iv; lia). split.
      - intros H. destruct (Z_le_gt_dec (value a result) (start - 1)) as [|Gt]; [assumption|]. exfalso. apply (H (value a result)); [apply between_in; lia|reflexivity].
      - intros H v Iv. apply between_in in Iv. lia. }
    assert (Base_min : forall n, (forall a, sat a base = true -> n <= value a result) -> forall g, numbers_to net N g -> n <= total_cost (recolour g net)).
    { intros n H g Hg. destruct (Bc g Hg) as (a & Sa & Va). rewrite (total_recolour g net (proj1 Hg)), <- Va. apply H. exact Sa. }
    destruct (improve_spec solver Hs base result (top2 + R) Or (Z.to_nat (start - 1)) (base ++ c4) 0 None) as (r & Er & D).
    { intros x Hx. apply in_app_iff. left. exact Hx. }
    { apply Forall_app. split; [|exact O4]. eapply Forall_impl; [|exact Ok]. intros c Hc. eapply Forall_ok_nonzero. exact Hc. }
    { intros a. rewrite sat_app, andb_true_iff, S4. rewrite Z2Nat.id by lia. reflexivity. }
    { rewrite Lr. lia. }
    assert (Run : optimise_colours solver order net =
      match fst r with
      | None => Some net
      | Some m => let* cm := colour_map (model_values m) labels in
                  let net' := remap_colours net cm in
                  let* cost' := calculate_cost net' in
                  if snd r + 1 =? cost' then Some net' else None
      end).
    { unfold optimise_colours. rewrite (cost_spec net Hnn), Hap. cbn [obind]. fold all. fold N. unfold bin_length at 1. destruct (Z.ltb_spec 0 N); [|lia]. cbn [obind]. fold L. rewrite El, E1. cbn [obind]. rewrite E2. change (set_minus (input_set net) (output_set net) ++ set_minus (output_set net) (input_set net))%list with (edge_set net). rewrite Eb. cbn [obind].
      unfold bin_length. rewrite Lb. destruct (Z.ltb_spec 0 (L * k + 1)); [|lia]. cbn [obind]. fold R. fold result. rewrite E3. cbn [obind]. rewrite shiftl1 by exact R0. fold start. rewrite E4. cbn [obind].
      replace (c1 ++ c2 ++ c3 ++ c4)%list with (base ++ c4)%list by (unfold base; rewrite <- !app_assoc; reflexivity). rewrite Z2Nat.id in Er by lia. replace (start - 1 + 1) with start in Er by lia. rewrite Er. destruct r as [model cost]. reflexivity. }
    rewrite Run. clear Run Er.
    assert (Keep : (forall g, numbers_to net N g -> start <= total_cost (recolour g net)) -> exists f, Some net = Some (recolour f net) /\ keeps_apart net f /\
       ((forall c, f c = c) \/ numbers_to net N f /\ total_cost (recolour f net) < start) /\
       forall g, numbers_to net N g -> total_cost (recolour f net) <= total_cost (recolour g net)).
    { intros H. exists (fun c => c). rewrite recolour_id. split; [reflexivity|]. split; [intros c d _ _ E; exact E|]. split; [left; reflexivity|exact H]. }
    destruct D as [(Z0 & ->)|[(Nz & Un & ->)|[(m & b & Hb & -> & G & Vm & Mn)|(m & Nz & -> & G & Vm)]]]; cbn [fst snd].
    - split; [lia|]. intros _. apply Keep. intros g Hg. rewrite (total_recolour g net (proj1 Hg)). pose proof (sum_k g (proj1 Hg) (fun c Hc => proj1 (proj2 Hg c Hc))). lia.
    - split.
      + intros K1 S1. exfalso. destruct (one_pair K1) as (f & Hf & Ef). destruct (Bc f Hf) as (a & Sa & Va). apply Un in Sa. lia.
      + intros _. apply Keep. apply Base_min. intros a Sa. apply Un in Sa. lia.
    - destruct (Bs (asg m) (proj2 (proj2 G))) as [Nm Vm']. rewrite (Fin m (b - 1) G Men (proj1 Nm)). rewrite <- Vm', Vm. replace (b - 1 + 1) with b by lia. rewrite Z.eqb_refl. split.
      + intros K1 S1. exfalso. destruct (one_pair K1) as (f & Hf & Ef). destruct (Bc f Hf) as (a & Sa & Va). apply Mn in Sa. lia.
      + intros _. eexists. split; [reflexivity|]. split; [apply Nm|]. rewrite (total_recolour _ net (proj1 Nm)), <- Vm', Vm. split; [right; split; [exact Nm|lia]|]. apply Base_min. exact Mn.
    - destruct (Bs (asg m) (proj2 (proj2 G))) as [Nm Vm']. rewrite (Fin m 1 G Men (proj1 Nm)). pose proof (sum_k _ (proj1 Nm) (fun c Hc => proj1 (proj2 Nm c Hc))) as Ks. cbn beta in Ks. rewrite <- Vm' in Ks. split.
      + intros _ _. rewrite <- Vm'. destruct (Z.eqb_spec (1 + 1) (value (asg m) result)); [lia|reflexivity].
      + intros [H|H]; lia.
  Qed.

  (** The cost does not fit: the first answer is followed by a failing assertion. *)
  Lemma result_large : 2 ^ R < start -> optimise_colours solver order net = None.
  Proof.
    intros Hst. destruct base_exists as (c1 & ds & c2 & top2 & cb & c3 & top3 & B).
    destruct (make_labels (Z.to_nat L) (order all) 0) as [labels top1] eqn:El.
    destruct B as (E1 & E2 & Eb & Lb & T2 & E3 & (t & Ok) & Bs & Bc & Men).
    set (base := (c1 ++ c2 ++ c3)%list) in *. set (result := fresh top2 (Z.to_nat R)) in *.
    assert (R0 : 0 <= R) by (unfold R; apply Z.log2_up_nonneg).
    assert (Lr : len result = R) by (unfold result, len; rewrite fresh_length; lia).
    assert (N2 : 2 <= N) by (apply (N_two order net Hap Hne)).
    unfold optimise_colours. rewrite (cost_spec net Hnn), Hap. cbn [obind]. fold all. fold N. unfold bin_length at 1. destruct (Z.ltb_spec 0 N); [|lia]. cbn [obind]. fold L. rewrite El, E1. cbn [obind]. rewrite E2. change (set_minus (input_set net) (output_set net) ++ set_minus (output_set net) (input_set net))%list with (edge_set net). rewrite Eb. cbn [obind].
    unfold bin_length. rewrite Lb. destruct (Z.ltb_spec 0 (L * k + 1)); [|lia]. cbn [obind]. fold R. fold result. rewrite E3. cbn [obind]. rewrite shiftl1 by exact R0. fold start.
    assert (B0 : between start (2 ^ R) = []) by (unfold between; replace (Z.to_nat (2 ^ R - start)) with O by lia; reflexivity). rewrite B0. cbn [omap obind].
    assert (P : 0 < 2 ^ R) by (apply Z.pow_pos_nonneg; lia).
    replace (between 1 start) with (between 1 (Z.of_nat (S (Z.to_nat (start - 2))) + 1)) by (f_equal; lia). rewrite between_rev. cbn [improve]. rewrite app_nil_r.
    fold base. pose proof (Hs base ltac:(eapply Forall_impl; [|exact Ok]; intros c Hc; eapply Forall_ok_nonzero; exact Hc)) as A. destruct (solver base) as [m|].
    - replace (set_not_number (Z.of_nat (S (Z.to_nat (start - 2)))) result) with (@None clause); [reflexivity|]. symmetry. destruct (set_not_number _ result) as [c|] eqn:E; [|reflexivity]. exfalso.
      assert (X : exists c, set_not_number (Z.of_nat (S (Z.to_nat (start - 2)))) result = Some c) by (exists c; exact E). apply (proj1 (set_not_number_some _ _)) in X. rewrite Lr in X. lia.
    - exfalso. destruct (place_facts all) as [P1 P2]. destruct (Bc (fun c => place c all)) as (a & Sa & _); [|rewrite A in Sa; discriminate].
      split; [intros c d Hc Hd; apply P2; apply all_in; assumption|intros c Hc; apply P1; apply all_in; exact Hc].
  Qed.
End Result.

(** Without two counted digits get_popcount raises. *)
Lemma result_small solver order net : (forall l, Permutation (order l) l) -> (forall c, has_colour net c -> 0 <= c) ->
  Z.log2_up (len (set_union (input_set net) (output_set net))) * len (counted_pairs net) < 2 -> optimise_colours solver order net = None.
Proof.
  intros Ho Hnn Small. unfold optimise_colours. rewrite (cost_spec net Hnn). destruct (apart (counted_pairs net)) eqn:Hap; [|reflexivity]. cbn [obind].
  destruct (bin_length (len (set_union (input_set net) (output_set net)))) as [L|] eqn:EL; [|reflexivity]. cbn [obind].
  assert (L = Z.log2_up (len (set_union (input_set net) (output_set net)))) by (unfold bin_length in EL; destruct (0 <? _); congruence). subst L.
  change (set_minus (input_set net) (output_set net) ++ set_minus (output_set net) (input_set net))%list with (edge_set net).
  assert (X : forall ds cb, (counted_pairs net = [] -> counted_bits (edge_set net) ds (sides net) = Some cb -> cb = [])).
  { intros ds cb E. change (counted_pairs net) with (pairs_by (innerb net) (sides net)) in E.
    assert (G : forall ss, incl ss (sides net) -> pairs_by (innerb net) ss = [] -> counted_bits (edge_set net) ds ss = Some []).
    { induction ss as [|s ss IH]; intros Inc H; [reflexivity|]. unfold pairs_by in H. cbn [flat_map] in H. apply app_eq_nil in H. destruct H as [H1 H2]. specialize (IH ltac:(intros x Hx; apply Inc; right; exact Hx) H2).
      destruct s as [[a|] [b|]]; cbn [counted_bits]; try exact IH. destruct (sides_colour net _ a b (Inc _ (or_introl eq_refl)) eq_refl) as [Ha Hb]. rewrite !edge_inner by assumption.
      destruct (innerb net a), (innerb net b); cbn in *; try discriminate; exact IH. }
    rewrite (G _ (incl_refl _) E). congruence. }
  destruct (make_labels _ (order _) 0) as [labels top1] eqn:El. destruct (unused_numbers _ _ labels) as [c1|]; [|reflexivity]. cbn [obind].
  destruct (make_differences _ (label_pairs labels) top1) as [[ds c2] top2] eqn:Ed. destruct (counted_bits (edge_set net) ds (sides net)) as [cb|] eqn:Eb; [|reflexivity]. cbn [obind].
  assert (Sm : (length cb <= 1)%nat).
  { destruct (counted_pairs net) as [|p r] eqn:Ep.
    - rewrite (X ds cb eq_refl Eb). cbn. lia.
    - rewrite <- Ep in *. assert (Hne : counted_pairs net <> []) by (rewrite Ep; discriminate). destruct (counted_spec order net Ho Hap Hne) as (cb' & Eb' & Lb' & _). rewrite El in Eb'. cbn [fst snd] in Eb'. rewrite Ed in Eb'. cbn [fst snd] in Eb'. rewrite Eb in Eb'. injection Eb' as <-. unfold len in Lb', Small. nia. }
  unfold bin_length at 1. destruct (0 <? len cb + 1); [|reflexivity]. cbn [obind].
  assert (Pc : forall o t, get_popcount cb o t = None).
  { intros o t. unfold get_popcount. destruct cb as [|x [|y cb]]; [reflexivity| |cbn in Sm; lia]. cbn [length popcount_fuel]. destruct (bin_length (len [x] + 1)); [|reflexivity]. destruct (negb _); reflexivity. }
  rewrite Pc. reflexivity.
Qed.
