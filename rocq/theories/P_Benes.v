(** Proofs about create_benes_network: termination, ends and balancing. *)
From Coq Require Import ZArith QArith List Bool Lia Lqa Permutation.
From Verif Require Import M_Json M_Dict P_Dict M_Network Spec_Network P_Network.
Import ListNotations.
Open Scope Z_scope.

(** * Colours and renaming *)
Definition colours_of (net : network) : list Z := present (input_slots net ++ output_slots net).
Definition slots (net : network) : list colour := (input_slots net ++ output_slots net)%list.

Lemma present_in l c : In c (present l) <-> In (Some c) l.
Proof.
  unfold present. rewrite in_flat_map. split.
  - intros (x & H1 & H2). destruct x as [y|]; [destruct H2 as [->|[]]; exact H1|destruct H2].
  - intros H. exists (Some c). split; [exact H|left; reflexivity].
Qed.
Lemma slots_in net x : In x (slots net) <-> exists nd, In nd net /\ (x = fst (fst nd) \/ x = snd (fst nd) \/ x = fst (snd nd) \/ x = snd (snd nd)).
Proof.
  unfold slots, input_slots, output_slots. rewrite in_app_iff, !in_flat_map. unfold side_list. cbn [In]. split.
  - intros [(nd & H & H')|(nd & H & H')]; exists nd; (split; [exact H|]); intuition congruence.
  - intros (nd & H & [E|[E|[E|E]]]); [left|left|right|right]; exists nd; (split; [exact H|]); auto.
Qed.

Definition rename (f : Z -> Z) (net : network) : network := map (map_splitter (option_map f)) net.
Lemma remap_rename net m f : (forall c, In c (colours_of net) -> dget Z.eqb c m = Some (f c)) ->
  remap_colours net m = rename f net.
Proof.
  intros H. unfold remap_colours, rename. apply map_ext_in. intros nd I.
  assert (E : forall x, In x (slots net) -> map_colour m x = option_map f x).
  { intros [c|] J; [|reflexivity]. cbn. rewrite H; [reflexivity|]. apply present_in. exact J. }
  unfold map_splitter. rewrite !E; try reflexivity; apply slots_in; exists nd; auto.
Qed.

Definition injective_on (f : Z -> Z) (l : list Z) : Prop := forall x y, In x l -> In y l -> f x = f y -> x = y.
Lemma is_colour_rename f c x l : injective_on f l -> In c l -> (forall y, x = Some y -> In y l) ->
  is_colour (f c) (option_map f x) = is_colour c x.
Proof.
  intros J Hc Hx. destruct x as [y|]; [|reflexivity]. cbn. destruct (Z.eqb_spec y c) as [->|N].
  - rewrite Z.eqb_refl. reflexivity.
  - destruct (Z.eqb_spec (f y) (f c)) as [E|]; [|reflexivity]. exfalso. apply N. apply J; auto.
Qed.
Lemma is_colour_other (f : Z -> Z) d x : (forall y, x = Some y -> f y <> d) -> is_colour d (option_map f x) = 0.
Proof. intros H. destruct x as [y|]; [|reflexivity]. cbn. destruct (Z.eqb_spec (f y) d); [|reflexivity]. exfalso. eapply H; eauto. Qed.

Lemma colours_cons nd net c : In c (colours_of (nd :: net)) <->
  (Some c = fst (fst nd) \/ Some c = snd (fst nd) \/ Some c = fst (snd nd) \/ Some c = snd (snd nd)) \/ In c (colours_of net).
Proof.
  unfold colours_of. rewrite !present_in. fold (slots (nd :: net)) (slots net). rewrite !slots_in. cbn [In]. split.
  - intros (n & [->|H] & H'); [left; exact H'|right; exists n; auto].
  - intros [H|(n & H & H')]; [exists nd; auto|exists n; auto].
Qed.

Lemma consumed_rename f l net c : injective_on f l -> In c l -> incl (colours_of net) l ->
  consumed (rename f net) (f c) = consumed net c /\ produced (rename f net) (f c) = produced net c.
Proof.
  intros J Hc. induction net as [|nd net IH]; intros I; [split; reflexivity|].
  cbn [rename map]. fold (rename f net). rewrite !consumed_cons, !produced_cons. unfold map_splitter at 1 2 3 4. cbn [fst snd].
  assert (K : incl (colours_of net) l) by (intros x Hx; apply I; apply colours_cons; right; exact Hx).
  destruct (IH K) as [-> ->].
  rewrite !(is_colour_rename f c _ l) by (try exact J; try exact Hc; intros y E; apply I; apply colours_cons; left; auto). auto.
Qed.
Lemma consumed_other f net d : (forall c, In c (colours_of net) -> f c <> d) ->
  consumed (rename f net) d = 0 /\ produced (rename f net) d = 0.
Proof.
  induction net as [|nd net IH]; intros I; [split; reflexivity|].
  cbn [rename map]. fold (rename f net). rewrite !consumed_cons, !produced_cons. unfold map_splitter at 1 2 3 4. cbn [fst snd].
  destruct IH as [-> ->]; [intros c Hc; apply I; apply colours_cons; right; exact Hc|].
  rewrite !is_colour_other by (intros y E; apply I; apply colours_cons; left; auto). auto.
Qed.

(** * Flow sums *)
Notation flows := ((Q * Q) * Q)%type.
Definition isq (c : Z) (x : colour) : Q := inject_Z (is_colour c x).
Fixpoint sum_in (c : Z) (net : network) (F : list flows) : Q :=
  match net, F with
  | nd :: net', ((fa, fb), _) :: F' => (isq c (fst (fst nd)) * fa + isq c (snd (fst nd)) * fb + sum_in c net' F')%Q
  | _, _ => 0%Q
  end.
Fixpoint sum_out (c : Z) (net : network) (F : list flows) : Q :=
  match net, F with
  | nd :: net', (_, g) :: F' => (isq c (fst (snd nd)) * g + isq c (snd (snd nd)) * g + sum_out c net' F')%Q
  | _, _ => 0%Q
  end.
Definition halves (x : flows) : Prop := let '((fa, fb), g) := x in (2 * g == fa + fb)%Q.

Lemma sum_app c n1 n2 F1 F2 : length n1 = length F1 ->
  (sum_in c (n1 ++ n2) (F1 ++ F2) == sum_in c n1 F1 + sum_in c n2 F2)%Q /\
  (sum_out c (n1 ++ n2) (F1 ++ F2) == sum_out c n1 F1 + sum_out c n2 F2)%Q.
Proof.
  revert F1. induction n1 as [|nd n1 IH]; intros [|[[fa fb] g] F1] L; cbn in L; try discriminate.
  - cbn. split; lra.
  - injection L as L. destruct (IH _ L) as [E1 E2]. cbn [sum_in sum_out app]. split; [rewrite E1|rewrite E2]; lra.
Qed.
Lemma sum_rename f l net c : injective_on f l -> In c l -> incl (colours_of net) l -> forall F,
  sum_in (f c) (rename f net) F = sum_in c net F /\ sum_out (f c) (rename f net) F = sum_out c net F.
Proof.
  intros J Hc. induction net as [|nd net IH]; intros I F; [split; reflexivity|].
  cbn [rename map]. fold (rename f net). destruct F as [|[[fa fb] g] F]; [split; reflexivity|]. cbn [sum_in sum_out].
  assert (K : incl (colours_of net) l) by (intros x Hx; apply I; apply colours_cons; right; exact Hx).
  destruct (IH K F) as [-> ->]. unfold map_splitter, isq. cbn [fst snd].
  rewrite !(is_colour_rename f c _ l) by (try exact J; try exact Hc; intros y E; apply I; apply colours_cons; left; auto). auto.
Qed.
Lemma sum_other f net d : (forall c, In c (colours_of net) -> f c <> d) -> forall F,
  (sum_in d (rename f net) F == 0 /\ sum_out d (rename f net) F == 0)%Q.
Proof.
  induction net as [|nd net IH]; intros I F; [split; reflexivity|].
  cbn [rename map]. fold (rename f net). destruct F as [|[[fa fb] g] F]; [split; reflexivity|]. cbn [sum_in sum_out].
  destruct (IH (fun c Hc => I c (proj2 (colours_cons nd net c) (or_intror Hc))) F) as [-> ->]. unfold map_splitter, isq. cbn [fst snd].
  rewrite !is_colour_other by (intros y E; apply I; apply colours_cons; left; auto). change (inject_Z 0) with 0%Q. split; lra.
Qed.
Lemma sum_out_unproduced net c : produced net c = 0 -> forall F, (sum_out c net F == 0)%Q.
Proof.
  induction net as [|nd net IH]; intros P F; [reflexivity|]. rewrite produced_cons in P.
  assert (0 <= is_colour c (fst (snd nd)) /\ 0 <= is_colour c (snd (snd nd)) /\ 0 <= produced net c).
  { unfold produced. pose proof (occurs_nonneg c). unfold is_colour. destruct (fst (snd nd)), (snd (snd nd)); repeat match goal with |- context [if ?b then _ else _] => destruct b end; repeat split; try lia; apply H. }
  destruct F as [|[[fa fb] g] F]; [reflexivity|]. cbn [sum_out]. rewrite IH by lia. unfold isq.
  replace (is_colour c (fst (snd nd))) with 0 by lia. replace (is_colour c (snd (snd nd))) with 0 by lia. change (inject_Z 0) with 0%Q. lra.
Qed.

(** The share of a network with loops back from its output: every output carries
    at most (A + k M) / (m + k) when no belt looped back carries more than M. *)
Definition low_inputs (net : network) (oc : Z) (F : list flows) (M : Q) : Prop :=
  forall nd fa fb g, In (nd, ((fa, fb), g)) (combine net F) ->
    (fst (fst nd) = Some oc -> fa <= M)%Q /\ (snd (fst nd) = Some oc -> fb <= M)%Q.
Definition bounded (m : Z) (net : network) (oc k : Z) : Prop :=
  forall F M, length F = length net -> Forall halves F ->
    (forall c, c <> 0 -> c <> oc -> (sum_in c net F == sum_out c net F)%Q) ->
    low_inputs net oc F M ->
    forall nd ff g, In (nd, (ff, g)) (combine net F) -> (fst (snd nd) = Some oc \/ snd (snd nd) = Some oc) ->
    (inject_Z (m + k) * g <= sum_in 0 net F + inject_Z k * M)%Q.

Record benes_ok (m : Z) (net : network) (oc k : Z) : Prop := {
  ok_closed : ~ In None (slots net);
  ok_ends : has_ends net 0 m oc m;
  ok_source : produced net 0 = 0;
  ok_k : 0 <= k;
  ok_bound : bounded m net oc k }.

(** * Size two *)
Lemma benes_two : benes_ok 2 [((Some 0, Some 0), (Some 1, Some 1))] 1 0.
Proof.
  split.
  - cbn. intuition discriminate.
  - apply ends_spec. reflexivity.
  - reflexivity.
  - lia.
  - intros F M L H _ _ nd ff g I _. destruct F as [|[[fa fb] g'] [|]]; try discriminate L.
    destruct I as [[= _ _ ->]|[]]. inversion H; subst. cbn in *. unfold isq. cbn. change (inject_Z 1) with 1%Q. change (inject_Z 2) with 2%Q. change (inject_Z 0) with 0%Q. lra.
Qed.

(** * Odd sizes: one input is fed from an output *)
Lemma replace_split inp out net : 0 < consumed net inp ->
  exists pre a b o post, net = pre ++ ((a, b), o) :: post /\
    ((a = Some inp /\ replace_input inp out net = pre ++ ((Some out, b), o) :: post) \/
     (b = Some inp /\ replace_input inp out net = pre ++ ((Some out, a), o) :: post)).
Proof.
  induction net as [|[[a b] o] net IH]; [unfold consumed; cbn; lia|].
  rewrite consumed_cons. cbn [fst snd replace_input]. intros P.
  destruct a as [a|]; [destruct (Z.eqb_spec a inp) as [->|Na]|].
  - exists [], (Some inp), b, o, net. cbn [colour_eqb]. rewrite Z.eqb_refl. split; [reflexivity|]. left. auto.
  - cbn [colour_eqb]. destruct (Z.eqb_spec a inp) as [|_]; [contradiction|]. destruct b as [b|]; [destruct (Z.eqb_spec b inp) as [->|Nb]|].
    + cbn [colour_eqb]. rewrite Z.eqb_refl. exists [], (Some a), (Some inp), o, net. split; [reflexivity|]. right. auto.
    + destruct IH as (pre & a' & b' & o' & post & -> & H).
      { cbn [is_colour] in P. destruct (Z.eqb_spec a inp), (Z.eqb_spec b inp); try contradiction. lia. }
      exists (((Some a, Some b), o) :: pre), a', b', o', post. split; [reflexivity|].
      cbn [colour_eqb]. destruct (Z.eqb_spec b inp); [contradiction|]. destruct H as [[E ->]|[E ->]]; [left|right]; auto.
    + destruct IH as (pre & a' & b' & o' & post & -> & H).
      { cbn [is_colour] in P. destruct (Z.eqb_spec a inp); try contradiction. lia. }
      exists (((Some a, None), o) :: pre), a', b', o', post. split; [reflexivity|].
      cbn [colour_eqb]. destruct H as [[E ->]|[E ->]]; [left|right]; auto.
  - cbn [colour_eqb]. destruct b as [b|]; [destruct (Z.eqb_spec b inp) as [->|Nb]|].
    + cbn [colour_eqb]. rewrite Z.eqb_refl. exists [], None, (Some inp), o, net. split; [reflexivity|]. right. auto.
    + destruct IH as (pre & a' & b' & o' & post & -> & H).
      { cbn [is_colour] in P. destruct (Z.eqb_spec b inp); try contradiction. lia. }
      exists (((None, Some b), o) :: pre), a', b', o', post. split; [reflexivity|].
      cbn [colour_eqb]. destruct (Z.eqb_spec b inp); [contradiction|]. destruct H as [[E ->]|[E ->]]; [left|right]; auto.
    + destruct IH as (pre & a' & b' & o' & post & -> & H).
      { cbn [is_colour] in P. lia. }
      exists (((None, None), o) :: pre), a', b', o', post. split; [reflexivity|].
      cbn [colour_eqb]. destruct H as [[E ->]|[E ->]]; [left|right]; auto.
Qed.

Lemma split_flows (n1 n2 : network) (F : list flows) : length F = length (n1 ++ n2) ->
  exists F1 F2, F = F1 ++ F2 /\ length F1 = length n1 /\ length F2 = length n2.
Proof.
  intros L. rewrite app_length in L. exists (firstn (length n1) F), (skipn (length n1) F).
  rewrite firstn_skipn, firstn_length, skipn_length. repeat split; lia.
Qed.
Lemma combine_app {A B} (a1 a2 : list A) (b1 b2 : list B) : length a1 = length b1 ->
  combine (a1 ++ a2) (b1 ++ b2) = combine a1 b1 ++ combine a2 b2.
Proof. revert b1. induction a1 as [|x a1 IH]; intros [|y b1] L; cbn in *; try discriminate; [reflexivity|]. f_equal. apply IH. lia. Qed.

Lemma is_colour_eq c x : is_colour c (Some x) = if x =? c then 1 else 0. Proof. reflexivity. Qed.

Lemma benes_odd m net oc k : 2 <= m -> benes_ok (m + 1) net oc k -> benes_ok m (replace_input 0 oc net) oc (k + 1).
Proof.
  intros Hm [Cl En So Hk Bo]. pose proof (ends_distinct _ _ _ _ _ En) as D.
  destruct (replace_split 0 oc net) as (pre & a & b & o & post & E & H).
  { destruct En as (_ & E0 & _ & _). lia. }
  (* both cases at once: [x] is the belt that stays *)
  assert (H' : exists x, (a = Some 0 /\ b = x \/ a = x /\ b = Some 0) /\ replace_input 0 oc net = pre ++ ((Some oc, x), o) :: post).
  { destruct H as [[-> ->]|[-> ->]]; [exists b|exists a]; auto. }
  clear H. destruct H' as (x & Hab & R). rewrite R. set (net' := pre ++ ((Some oc, x), o) :: post) in *.
  assert (Co : forall c, consumed net' c = consumed net c + is_colour c (Some oc) - is_colour c (Some 0)).
  { intros c. unfold net'. rewrite E, !consumed_app, !consumed_cons. cbn [fst snd]. destruct Hab as [[-> ->]|[-> ->]]; lia. }
  assert (Pr : forall c, produced net' c = produced net c).
  { intros c. unfold net'. rewrite E, !produced_app, !produced_cons. reflexivity. }
  split.
  - intros C. apply Cl. apply slots_in in C. destruct C as (nd & I & Q). unfold net' in I. rewrite in_app_iff in I. cbn in I.
    apply slots_in. rewrite E. setoid_rewrite in_app_iff. cbn [In].
    destruct I as [I|[<-|I]]; [exists nd; auto| |exists nd; auto].
    exists ((a, b), o). split; [auto|]. cbn [fst snd] in *. destruct Hab as [[-> ->]|[-> ->]]; intuition congruence.
  - destruct En as ((P1 & P2) & E1 & E2 & E3). repeat split.
    + lia.
    + lia.
    + rewrite Co, Pr, !is_colour_eq. destruct (Z.eqb_spec oc 0); [congruence|]. cbn. lia.
    + rewrite Co, Pr, !is_colour_eq, Z.eqb_refl. destruct (Z.eqb_spec 0 oc); [congruence|]. lia.
    + intros c N0 No. rewrite Co, Pr, !is_colour_eq. destruct (Z.eqb_spec oc c); [congruence|]. destruct (Z.eqb_spec 0 c); [congruence|]. rewrite E3 by assumption. lia.
  - rewrite Pr. exact So.
  - lia.
  - intros F M L Hh Cons Low nd ff g I O.
    unfold net' in L. destruct (split_flows pre _ F L) as (F1 & F2 & -> & L1 & L2).
    destruct F2 as [|[[fa fb] g0] F2]; [discriminate L2|].
    (* the flows seen from the inner network *)
    assert (SW : exists fa' fb', ((a = Some 0 /\ b = x /\ fa' = fa /\ fb' = fb) \/ (a = x /\ b = Some 0 /\ fa' = fb /\ fb' = fa))).
    { destruct Hab as [[-> ->]|[-> ->]]; [exists fa, fb|exists fb, fa]; auto. }
    destruct SW as (fa' & fb' & SW).
    set (F' := F1 ++ ((fa', fb'), g0) :: F2).
    assert (Si : forall c, (sum_in c net F' == sum_in c net' (F1 ++ ((fa, fb), g0) :: F2) + (isq c (Some 0%Z) - isq c (Some oc)) * fa)%Q).
    { intros c. unfold F', net'. rewrite E. destruct (sum_app c pre (((a, b), o) :: post) F1 (((fa', fb'), g0) :: F2) (eq_sym L1)) as [-> _].
      destruct (sum_app c pre (((Some oc, x), o) :: post) F1 (((fa, fb), g0) :: F2) (eq_sym L1)) as [-> _]. cbn [sum_in fst snd].
      destruct SW as [(-> & -> & -> & ->)|(-> & -> & -> & ->)]; ring. }
    assert (So' : forall c, (sum_out c net F' == sum_out c net' (F1 ++ ((fa, fb), g0) :: F2))%Q).
    { intros c. unfold F', net'. rewrite E. destruct (sum_app c pre (((a, b), o) :: post) F1 (((fa', fb'), g0) :: F2) (eq_sym L1)) as [_ ->].
      destruct (sum_app c pre (((Some oc, x), o) :: post) F1 (((fa, fb), g0) :: F2) (eq_sym L1)) as [_ ->]. reflexivity. }
    assert (Lx : (fa <= M)%Q).
    { apply (Low ((Some oc, x), o) fa fb g0); [|reflexivity]. unfold net'. rewrite combine_app by lia. apply in_or_app. right. left. reflexivity. }
    assert (Bo' : (inject_Z (m + 1 + k) * g <= sum_in 0 net F' + inject_Z k * M)%Q).
    { assert (exists nd', (exists ff', In (nd', (ff', g)) (combine net F')) /\ snd nd' = snd nd) as (nd' & (ff' & I') & Es).
      { unfold net' in I. rewrite combine_app in I by lia. apply in_app_or in I. cbn [combine In] in I.
        rewrite E. unfold F'. rewrite combine_app by lia. destruct I as [I|[I|I]].
        - exists nd. split; [exists ff; apply in_or_app; left; exact I|reflexivity].
        - injection I as <- <- <-. exists ((a, b), o). split; [exists (fa', fb'); apply in_or_app; right; left; reflexivity|reflexivity].
        - exists nd. split; [exists ff; apply in_or_app; right; right; exact I|reflexivity]. }
      apply (Bo F' M) with (nd := nd') (ff := ff').
      - unfold F'. rewrite E, !app_length in *. cbn in *. lia.
      - unfold F'. apply Forall_app in Hh. destruct Hh as [Hh1 Hh2]. inversion Hh2 as [|? ? Hg Hh3]; subst. apply Forall_app. split; [assumption|]. constructor; [|assumption].
        cbn in Hg |- *. destruct SW as [(_ & _ & -> & ->)|(_ & _ & -> & ->)]; lra.
      - intros c N0 No. rewrite Si, So', (Cons c N0 No). unfold isq. rewrite !is_colour_eq.
        destruct (Z.eqb_spec 0 c); [congruence|]. destruct (Z.eqb_spec oc c); [congruence|]. change (inject_Z 0) with 0%Q. lra.
      - intros nd1 fa1 fb1 g1 I1. rewrite E in I1. unfold F' in I1. rewrite combine_app in I1 by lia. apply in_app_or in I1. cbn [combine In] in I1.
        assert (K : forall nd2 f2, In (nd2, f2) (combine pre F1) \/ In (nd2, f2) (combine post F2) -> In (nd2, f2) (combine net' (F1 ++ ((fa, fb), g0) :: F2))).
        { intros nd2 f2 K. unfold net'. rewrite combine_app by (symmetry; exact L1). apply in_or_app. cbn. destruct K; auto. }
        destruct I1 as [I1|[I1|I1]]; [exact (Low _ _ _ _ (K _ _ (or_introl I1)))| |exact (Low _ _ _ _ (K _ _ (or_intror I1)))].
        injection I1 as <- <- <- <-. cbn [fst snd].
        assert (Lm : (x = Some oc -> fb <= M)%Q).
        { apply (Low ((Some oc, x), o) fa fb g0). unfold net'. rewrite combine_app by lia. apply in_or_app. right. left. reflexivity. }
        destruct SW as [(-> & -> & -> & ->)|(-> & -> & -> & ->)]; split; intros EE; auto; congruence.
      - exact I'.
      - rewrite Es. exact O. }
    rewrite Si in Bo'. unfold isq in Bo'. rewrite !is_colour_eq, Z.eqb_refl in Bo'. destruct (Z.eqb_spec oc 0); [congruence|].
    change (inject_Z 1) with 1%Q in Bo'. change (inject_Z 0) with 0%Q in Bo'.
    replace (m + (k + 1)) with (m + 1 + k) by lia. rewrite (inject_Z_plus k 1). change (inject_Z 1) with 1%Q. lra.
Qed.

(** * Even sizes: two copies of the network of half the size *)
Fixpoint index (x : Z) (cs : list Z) : option Z :=
  match cs with [] => None | c :: r => if x =? c then Some 0 else match index x r with Some i => Some (i + 1) | None => None end end.
Lemma index_none x cs : index x cs = None <-> ~ In x cs.
Proof.
  induction cs as [|c cs IH]; cbn; [tauto|]. destruct (Z.eqb_spec x c) as [->|N].
  - split; [discriminate|intros H; exfalso; auto].
  - destruct (index x cs); split; intros H; try discriminate; try reflexivity.
    + exfalso. assert (~ In x cs) as C by tauto. apply IH in C. discriminate.
    + intros [C|C]; [congruence|]. apply (proj1 IH); auto.
Qed.
Lemma index_range x cs i : index x cs = Some i -> 0 <= i < Z.of_nat (length cs).
Proof.
  revert i. induction cs as [|c cs IH]; cbn [index length]; intros i; [discriminate|]. destruct (x =? c); [intros [= <-]; lia|].
  destruct (index x cs) as [j|]; [|discriminate]. intros [= <-]. specialize (IH j eq_refl). lia.
Qed.
Lemma index_inj x y cs i : index x cs = Some i -> index y cs = Some i -> x = y.
Proof.
  revert i. induction cs as [|c cs IH]; cbn; intros i; [discriminate|]. destruct (Z.eqb_spec x c), (Z.eqb_spec y c); try congruence.
  - intros [= <-]. destruct (index y cs) as [j|] eqn:E; [|discriminate]. intros [= F]. pose proof (index_range _ _ _ E). lia.
  - destruct (index x cs) as [j|] eqn:E; [|discriminate]. intros H [= F]. injection H as H. pose proof (index_range _ _ _ E). lia.
  - destruct (index x cs) as [j|]; [|discriminate]. destruct (index y cs) as [k|]; [|discriminate]. intros [= H1] [= H2]. apply (IH j); [reflexivity|]. f_equal. lia.
Qed.

Lemma number_inner_spec cs : NoDup cs -> forall i a b e a' b', number_inner i cs a b = (e, a', b') ->
  e = i + 2 * Z.of_nat (length cs) /\
  (forall x, dget Z.eqb x a' = match index x cs with Some k => Some (i + 2 * k) | None => dget Z.eqb x a end) /\
  (forall x, dget Z.eqb x b' = match index x cs with Some k => Some (i + 1 + 2 * k) | None => dget Z.eqb x b end).
Proof.
  induction 1 as [|c cs Hc N IH]; intros i a b e a' b'; cbn [number_inner length index].
  - intros [= <- <- <-]. repeat split; lia.
  - intros H. apply IH in H. destruct H as (-> & Ha & Hb). split; [lia|].
    assert (Nc : index c cs = None) by (apply index_none; exact Hc).
    split; intros x; [rewrite Ha|rewrite Hb]; rewrite (dget_dset Z.eqb Z.eqb_spec); destruct (Z.eqb_spec x c) as [->|];
      try (rewrite Nc; f_equal; lia); destruct (index x cs); try reflexivity; f_equal; lia.
Qed.

Record doubling (all : list Z) (oc e : Z) (fa fb : Z -> Z) : Prop := {
  du_e : 3 <= e;
  du_a0 : fa 0 = 1; du_b0 : fb 0 = 2; du_ao : fa oc = e; du_bo : fb oc = e;
  du_ai : injective_on fa all; du_bi : injective_on fb all;
  du_a : forall x, In x all -> fa x <> 0 /\ fa x <> 2;
  du_b : forall x, In x all -> fb x <> 0 /\ fb x <> 1;
  du_ab : forall x y, In x all -> In y all -> fa x = fb y -> x = oc }.

Lemma double_shape order size inner m oc net : (forall l, Permutation (order l) l) -> has_ends inner 0 m oc m ->
  double_network order size inner = Some net ->
  exists fa fb e, doubling (colours_of inner) oc e fa fb /\
    net = repeat ((Some 0, Some 0), (Some 1, Some 2)) (Z.to_nat size) ++ rename fa inner ++ rename fb inner.
Proof.
  intros Ho En. unfold double_network. pose proof (proj2 (ends_spec inner 0 m oc m) En) as G. rewrite G. cbn [obind].
  set (all := set_of (present (input_slots inner ++ output_slots inner))).
  set (cs := order (set_minus all [0; oc])).
  destruct (number_inner 3 cs [(0, 1)] [(0, 2)]) as [[e a'] b'] eqn:NI. intros R.
  assert (Rn : net = (repeat ((Some 0, Some 0), (Some 1, Some 2)) (Z.to_nat size) ++ remap_colours inner (dset Z.eqb oc e a') ++ remap_colours inner (dset Z.eqb oc e b'))%list) by congruence.
  clear R.
  assert (Nd : NoDup cs).
  { unfold cs. apply (Permutation_NoDup (Permutation_sym (Ho _))). unfold set_minus. apply NoDup_filter. apply NoDup_nodup. }
  assert (Mem : forall x, In x cs <-> In x (colours_of inner) /\ x <> 0 /\ x <> oc).
  { intros x. assert (In x cs <-> In x (set_minus all [0; oc])) as ->.
    { unfold cs. split; apply Permutation_in; [apply Ho|apply Permutation_sym, Ho]. }
    unfold set_minus, all, set_of, mem. rewrite filter_In, nodup_In. fold (colours_of inner). cbn [existsb].
    destruct (Z.eqb_spec x 0), (Z.eqb_spec x oc); cbn; intuition congruence. }
  destruct (number_inner_spec cs Nd _ _ _ _ _ _ NI) as (Ee & Ha & Hb).
  pose proof (ends_distinct _ _ _ _ _ En) as D.
  set (fa := fun x => if x =? oc then e else if x =? 0 then 1 else match index x cs with Some k => 3 + 2 * k | None => 0 end).
  set (fb := fun x => if x =? oc then e else if x =? 0 then 2 else match index x cs with Some k => 4 + 2 * k | None => 0 end).
  assert (Cs : forall x, In x (colours_of inner) -> x = oc \/ x = 0 /\ x <> oc \/ (x <> oc /\ x <> 0 /\ exists k, index x cs = Some k /\ 0 <= k /\ 3 + 2 * k < e)).
  { intros x Hx. destruct (Z.eq_dec x oc); [auto|]. destruct (Z.eq_dec x 0); [auto|]. right. right. repeat split; auto.
    destruct (index x cs) as [k|] eqn:I; [exists k; split; [reflexivity|]; apply index_range in I; lia|].
    exfalso. apply index_none in I. apply I. apply Mem. auto. }
  exists fa, fb, e. split.
  - split.
    + lia.
    + unfold fa. destruct (Z.eqb_spec 0 oc); [congruence|]. reflexivity.
    + unfold fb. destruct (Z.eqb_spec 0 oc); [congruence|]. reflexivity.
    + unfold fa. rewrite Z.eqb_refl. reflexivity.
    + unfold fb. rewrite Z.eqb_refl. reflexivity.
    + intros x y Hx Hy. apply Cs in Hx, Hy. unfold fa.
      destruct (Z.eqb_spec x oc), (Z.eqb_spec y oc), (Z.eqb_spec x 0), (Z.eqb_spec y 0); try congruence; intros E;
        try destruct Hx as [?|[?|(_ & _ & k & Ik & Rk)]]; try destruct Hy as [?|[?|(_ & _ & j & Ij & Rj)]]; try lia; rewrite ?Ik, ?Ij in E; try lia.
      apply (index_inj x y cs k); [assumption|]. rewrite Ij. f_equal. lia.
    + intros x y Hx Hy. apply Cs in Hx, Hy. unfold fb.
      destruct (Z.eqb_spec x oc), (Z.eqb_spec y oc), (Z.eqb_spec x 0), (Z.eqb_spec y 0); try congruence; intros E;
        try destruct Hx as [?|[?|(_ & _ & k & Ik & Rk)]]; try destruct Hy as [?|[?|(_ & _ & j & Ij & Rj)]]; try lia; rewrite ?Ik, ?Ij in E; try lia.
      apply (index_inj x y cs k); [assumption|]. rewrite Ij. f_equal. lia.
    + intros x Hx. apply Cs in Hx. unfold fa. destruct (Z.eqb_spec x oc), (Z.eqb_spec x 0); try lia.
      destruct Hx as [?|[?|(_ & _ & k & Ik & Rk)]]; try lia. rewrite Ik. lia.
    + intros x Hx. apply Cs in Hx. unfold fb. destruct (Z.eqb_spec x oc), (Z.eqb_spec x 0); try lia.
      destruct Hx as [?|[?|(_ & _ & k & Ik & Rk)]]; try lia. rewrite Ik. lia.
    + intros x y Hx Hy. apply Cs in Hx, Hy. unfold fa, fb. intros E.
      destruct (Z.eqb_spec x oc), (Z.eqb_spec y oc), (Z.eqb_spec x 0), (Z.eqb_spec y 0); try congruence; exfalso;
        try destruct Hx as [?|[?|(_ & _ & k & Ik & Rk)]]; try destruct Hy as [?|[?|(_ & _ & j & Ij & Rj)]]; try lia; rewrite ?Ik, ?Ij in E; lia.
  - rewrite Rn. f_equal. f_equal; apply remap_rename; intros c Hc; rewrite (dget_dset Z.eqb Z.eqb_spec), ?Ha, ?Hb; unfold fa, fb; apply Cs in Hc;
    (destruct (Z.eqb_spec c oc); [reflexivity|]; destruct Hc as [?|[[-> ?]|(_ & N0 & k & Ik & Rk)]]; [contradiction| |]).
    + destruct (index 0 cs) eqn:I0; [|reflexivity]. exfalso. assert (In 0 cs) as J0 by (destruct (in_dec Z.eq_dec 0 cs) as [|C]; [assumption|apply index_none in C; congruence]). apply Mem in J0. lia.
    + rewrite Ik. destruct (Z.eqb_spec c 0); [contradiction|]. reflexivity.
    + destruct (index 0 cs) eqn:I0; [|reflexivity]. exfalso. assert (In 0 cs) as J0 by (destruct (in_dec Z.eq_dec 0 cs) as [|C]; [assumption|apply index_none in C; congruence]). apply Mem in J0. lia.
    + rewrite Ik. destruct (Z.eqb_spec c 0); [contradiction|]. reflexivity.
Qed.

Definition layer (n : nat) : network := repeat ((Some 0, Some 0), (Some 1, Some 2)) n.
Lemma layer_counts n c : consumed (layer n) c = (if c =? 0 then 2 * Z.of_nat n else 0) /\
  produced (layer n) c = (if c =? 1 then Z.of_nat n else if c =? 2 then Z.of_nat n else 0).
Proof.
  induction n as [|n [IH1 IH2]]; [unfold layer, consumed, produced; cbn; destruct (c =? 0), (c =? 1), (c =? 2); split; reflexivity|].
  unfold layer in *. cbn [repeat]. rewrite consumed_cons, produced_cons, IH1, IH2. cbn [fst snd is_colour].
  rewrite (Z.eqb_sym 0 c), (Z.eqb_sym 1 c), (Z.eqb_sym 2 c).
  destruct (Z.eqb_spec c 0), (Z.eqb_spec c 1), (Z.eqb_spec c 2); subst; split; try lia; try discriminate.
Qed.
Lemma layer_sums n : forall F, length F = n -> Forall halves F ->
  (2 * sum_out 1 (layer n) F == sum_in 0 (layer n) F /\ 2 * sum_out 2 (layer n) F == sum_in 0 (layer n) F /\
   (forall c, c <> 0%Z -> sum_in c (layer n) F == 0) /\ (forall c, c <> 1%Z -> c <> 2%Z -> sum_out c (layer n) F == 0))%Q.
Proof.
  induction n as [|n IH]; intros [|[[fa fb] g] F] L H; try discriminate L; [cbn; repeat split; intros; reflexivity|].
  injection L as L. inversion H; subst. destruct (IH F eq_refl H3) as (I1 & I2 & I3 & I4).
  unfold layer in *. cbn [repeat sum_in sum_out fst snd] in *. unfold halves in H2.
  assert (V : forall a b, isq a (Some b) = inject_Z (if b =? a then 1 else 0)) by reflexivity.
  split; [|split; [|split]].
  - rewrite !V. change (1 =? 1) with true. change (2 =? 1) with false. change (0 =? 0) with true.
    cbn iota. change (inject_Z 1) with 1%Q. change (inject_Z 0) with 0%Q. lra.
  - rewrite !V. change (1 =? 2) with false. change (2 =? 2) with true. change (0 =? 0) with true.
    cbn iota. change (inject_Z 1) with 1%Q. change (inject_Z 0) with 0%Q. lra.
  - intros c Hc. rewrite (I3 c Hc), !V. destruct (Z.eqb_spec 0 c); [congruence|]. change (inject_Z 0) with 0%Q. lra.
  - intros c H1 H4. rewrite (I4 c H1 H4), !V. destruct (Z.eqb_spec 1 c); [congruence|]. destruct (Z.eqb_spec 2 c); [congruence|]. change (inject_Z 0) with 0%Q. lra.
Qed.

Lemma slots_rename f net x : In x (slots (rename f net)) -> exists y, In y (slots net) /\ x = option_map f y.
Proof.
  intros H. apply slots_in in H. destruct H as (nd & I & H). unfold rename in I. apply in_map_iff in I. destruct I as (nd0 & <- & I).
  unfold map_splitter in H. cbn [fst snd] in H.
  destruct H as [H|[H|[H|H]]]; eexists; (split; [|exact H]); apply slots_in; exists nd0; auto.
Qed.
Lemma combine_rename f net (F : list flows) nd ff : In (nd, ff) (combine net F) -> In (map_splitter (option_map f) nd, ff) (combine (rename f net) F).
Proof.
  revert F. induction net as [|n net IH]; intros [|x F] H; cbn in *; try tauto. destruct H as [[= -> ->]|H]; [left; reflexivity|right; auto].
Qed.
Lemma combine_rename_inv f net (F : list flows) nd ff : In (nd, ff) (combine (rename f net) F) -> exists nd0, nd = map_splitter (option_map f) nd0 /\ In (nd0, ff) (combine net F).
Proof.
  revert F. induction net as [|n net IH]; intros [|x F] H; cbn in *; try tauto. destruct H as [[= <- <-]|H]; [exists n; auto|].
  destruct (IH F H) as (nd0 & -> & I). exists nd0. auto.
Qed.
Lemma colour_of_slot net nd (x : colour) : In nd net -> (x = fst (fst nd) \/ x = snd (fst nd) \/ x = fst (snd nd) \/ x = snd (snd nd)) ->
  forall c, x = Some c -> In c (colours_of net).
Proof. intros I H c ->. unfold colours_of. apply present_in. apply slots_in. exists nd. auto. Qed.

Lemma in_consumed net c : consumed net c <> 0 \/ produced net c <> 0 -> In c (colours_of net).
Proof.
  intros H. unfold colours_of. apply present_in. unfold input_slots, output_slots.
  apply in_or_app. destruct H as [H|H]; [left|right]; apply occurs_in.
  - change (0 < consumed net c). assert (0 <= consumed net c) by apply occurs_nonneg. lia.
  - change (0 < produced net c). assert (0 <= produced net c) by apply occurs_nonneg. lia.
Qed.

Lemma benes_even m inner oc k order net : 2 <= m -> benes_ok m inner oc k -> (forall l, Permutation (order l) l) ->
  double_network order m inner = Some net -> exists oc', benes_ok (2 * m) net oc' (2 * k).
Proof.
  intros Hm [Cl En So Hk Bo] Ho R. pose proof (ends_distinct _ _ _ _ _ En) as D.
  destruct (double_shape order m inner m oc net Ho En R) as (fa & fb & e & DU & ->). clear R.
  fold (layer (Z.to_nat m)). set (all := colours_of inner) in *.
  assert (H0 : In 0 all). { apply in_consumed. destruct En as (_ & E0 & _). lia. }
  assert (Hoc : In oc all). { apply in_consumed. destruct En as (_ & _ & E0 & _). lia. }
  destruct DU as [De A0 B0 AO BO AI BI DA DB DAB].
  assert (DBA : forall x y, In x all -> In y all -> fa x = fb y -> y = oc).
  { intros x y Hx Hy E. assert (x = oc) by (apply (DAB x y); assumption). subst x. apply BI; auto. congruence. }
  exists e.
  (* how a colour of the whole network splits over the three parts *)
  assert (Col : forall d, (exists c, In c all /\ fa c = d /\ (c <> oc -> forall c', In c' all -> fb c' <> d)) \/
                          (exists c, In c all /\ c <> oc /\ fb c = d /\ forall c', In c' all -> fa c' <> d) \/
                          (forall c, In c all -> fa c <> d /\ fb c <> d)).
  { intros d. destruct (in_dec Z.eq_dec d (map fa all)) as [I|I].
    - left. apply in_map_iff in I. destruct I as (c & E & Hc). exists c. repeat split; auto. intros N c' Hc' E'. apply N. apply (DAB c c'); auto. congruence.
    - right. assert (I' : forall c, In c all -> fa c <> d) by (intros c Hc E; apply I; apply in_map_iff; eauto).
      destruct (in_dec Z.eq_dec d (map fb all)) as [J|J].
      + left. apply in_map_iff in J. destruct J as (c & E & Hc). exists c. repeat split; auto. intros ->. apply (I' oc Hoc). congruence.
      + right. intros c Hc. split; [auto|]. intros E. apply J. apply in_map_iff. eauto. }
  assert (CA : forall c, In c all -> consumed (rename fa inner) (fa c) = consumed inner c /\ produced (rename fa inner) (fa c) = produced inner c)
    by (intros c Hc; apply (consumed_rename fa all); auto; apply incl_refl).
  assert (CB : forall c, In c all -> consumed (rename fb inner) (fb c) = consumed inner c /\ produced (rename fb inner) (fb c) = produced inner c)
    by (intros c Hc; apply (consumed_rename fb all); auto; apply incl_refl).
  split.
  - intros C. unfold slots in C. apply in_app_or in C.
    assert (In None (slots (layer (Z.to_nat m))) \/ In None (slots (rename fa inner)) \/ In None (slots (rename fb inner))) as [C'|[C'|C']].
    { unfold slots. rewrite !in_app_iff. unfold input_slots, output_slots in C. rewrite !flat_map_app, !in_app_iff in C. unfold input_slots, output_slots. tauto. }
    + apply slots_in in C'. destruct C' as (nd & I & C'). apply repeat_spec in I. subst nd. cbn in C'. intuition discriminate.
    + apply slots_rename in C'. destruct C' as ([y|] & I & C'); [discriminate|contradiction].
    + apply slots_rename in C'. destruct C' as ([y|] & I & C'); [discriminate|contradiction].
  - destruct En as ((P1 & P2) & E1 & E2 & E3). repeat split.
    + lia.
    + lia.
    + rewrite !consumed_app, !produced_app. destruct (layer_counts (Z.to_nat m) 0) as [-> ->].
      destruct (consumed_other fa inner 0) as [-> ->]; [intros c Hc; apply DA; exact Hc|].
      destruct (consumed_other fb inner 0) as [-> ->]; [intros c Hc; apply DB; exact Hc|]. change (0 =? 0) with true. change (0 =? 1) with false. change (0 =? 2) with false. cbn iota. lia.
    + rewrite !consumed_app, !produced_app. destruct (layer_counts (Z.to_nat m) e) as [-> ->].
      destruct (Z.eqb_spec e 0), (Z.eqb_spec e 1), (Z.eqb_spec e 2); try lia.
      rewrite <- AO at 1 3. rewrite <- BO at 1 2. destruct (CA oc Hoc) as [-> ->]. destruct (CB oc Hoc) as [-> ->]. lia.
    + intros d N0 Ne. rewrite !consumed_app, !produced_app. destruct (layer_counts (Z.to_nat m) d) as [-> ->].
      destruct (Z.eqb_spec d 0); [contradiction|]. destruct (Col d) as [(c & Hc & <- & Nb)|[(c & Hc & Nc & <- & Na)|Nn]].
      * assert (Nc : c <> oc) by congruence. destruct (consumed_other fb inner (fa c) (Nb Nc)) as [-> ->]. destruct (CA c Hc) as [-> ->].
        destruct (Z.eq_dec c 0) as [->|]; [rewrite A0; cbn; lia|]. specialize (E3 c n0 Nc).
        destruct (Z.eqb_spec (fa c) 1) as [E|]; [exfalso; apply n0; apply AI; auto; congruence|].
        destruct (Z.eqb_spec (fa c) 2) as [E|]; [exfalso; apply (DA c Hc); assumption|]. lia.
      * destruct (consumed_other fa inner (fb c) Na) as [-> ->]. destruct (CB c Hc) as [-> ->].
        destruct (Z.eq_dec c 0) as [->|]; [rewrite B0; cbn; lia|]. specialize (E3 c n0 Nc).
        destruct (Z.eqb_spec (fb c) 2) as [E|]; [exfalso; apply n0; apply BI; auto; congruence|].
        destruct (Z.eqb_spec (fb c) 1) as [E|]; [exfalso; apply (DB c Hc); assumption|]. lia.
      * destruct (consumed_other fa inner d) as [-> ->]; [intros c Hc; apply Nn; exact Hc|].
        destruct (consumed_other fb inner d) as [-> ->]; [intros c Hc; apply Nn; exact Hc|].
        destruct (Z.eqb_spec d 1) as [->|]; [exfalso; destruct (Nn 0 H0) as [Q1 Q2]; contradiction|].
        destruct (Z.eqb_spec d 2) as [->|]; [exfalso; destruct (Nn 0 H0) as [Q1 Q2]; contradiction|]. lia.
  - rewrite !produced_app. destruct (layer_counts (Z.to_nat m) 0) as [_ ->].
    destruct (consumed_other fa inner 0) as [_ ->]; [intros c Hc; apply DA; exact Hc|].
    destruct (consumed_other fb inner 0) as [_ ->]; [intros c Hc; apply DB; exact Hc|]. reflexivity.
  - lia.
  - intros F M L Hh Cons Low nd ff g I O.
    destruct (split_flows _ _ F L) as (F1 & F23 & -> & L1 & L23). destruct (split_flows _ _ F23 L23) as (F2 & F3 & -> & L2 & L3). clear L23 L.
    apply Forall_app in Hh. destruct Hh as [Hh1 Hh]. apply Forall_app in Hh. destruct Hh as [Hh2 Hh3].
    assert (LL : length F1 = Z.to_nat m) by (rewrite L1; unfold layer; apply repeat_length).
    destruct (layer_sums (Z.to_nat m) F1 LL Hh1) as (S1 & S2 & S3 & S4).
    assert (Sp : forall c, (sum_in c (layer (Z.to_nat m) ++ rename fa inner ++ rename fb inner) (F1 ++ F2 ++ F3) == sum_in c (layer (Z.to_nat m)) F1 + sum_in c (rename fa inner) F2 + sum_in c (rename fb inner) F3)%Q /\
                           (sum_out c (layer (Z.to_nat m) ++ rename fa inner ++ rename fb inner) (F1 ++ F2 ++ F3) == sum_out c (layer (Z.to_nat m)) F1 + sum_out c (rename fa inner) F2 + sum_out c (rename fb inner) F3)%Q).
    { intros c. destruct (sum_app c (layer (Z.to_nat m)) (rename fa inner ++ rename fb inner) F1 (F2 ++ F3) (eq_sym L1)) as [-> ->].
      destruct (sum_app c (rename fa inner) (rename fb inner) F2 F3 (eq_sym L2)) as [-> ->]. split; lra. }
    assert (SA : forall c, In c all -> sum_in (fa c) (rename fa inner) F2 = sum_in c inner F2 /\ sum_out (fa c) (rename fa inner) F2 = sum_out c inner F2)
      by (intros c Hc; apply (sum_rename fa all); auto; apply incl_refl).
    assert (SB : forall c, In c all -> sum_in (fb c) (rename fb inner) F3 = sum_in c inner F3 /\ sum_out (fb c) (rename fb inner) F3 = sum_out c inner F3)
      by (intros c Hc; apply (sum_rename fb all); auto; apply incl_refl).
    assert (T0 : (sum_in 0 (layer (Z.to_nat m) ++ rename fa inner ++ rename fb inner) (F1 ++ F2 ++ F3) == sum_in 0 (layer (Z.to_nat m)) F1)%Q).
    { destruct (Sp 0) as [-> _]. destruct (sum_other fa inner 0 (fun c Hc => proj1 (DA c Hc)) F2) as [-> _].
      destruct (sum_other fb inner 0 (fun c Hc => proj1 (DB c Hc)) F3) as [-> _]. lra. }
    assert (TA : (2 * sum_in 0 inner F2 == sum_in 0 (layer (Z.to_nat m)) F1)%Q).
    { pose proof (Cons 1 ltac:(lia) ltac:(lia)) as C1. destruct (Sp 1) as [C2 C3]. rewrite C2, C3 in C1. clear C2 C3.
      destruct (sum_other fb inner 1 (fun c Hc => proj2 (DB c Hc)) F3) as [X1 X2].
      destruct (SA 0 H0) as [X3 X4]. rewrite A0 in X3, X4. rewrite X1, X2, X3, X4, (S3 1 ltac:(lia)), (sum_out_unproduced inner 0 So) in C1. lra. }
    assert (TB : (2 * sum_in 0 inner F3 == sum_in 0 (layer (Z.to_nat m)) F1)%Q).
    { pose proof (Cons 2 ltac:(lia) ltac:(lia)) as C1. destruct (Sp 2) as [C2 C3]. rewrite C2, C3 in C1. clear C2 C3.
      destruct (sum_other fa inner 2 (fun c Hc => proj2 (DA c Hc)) F2) as [X1 X2].
      destruct (SB 0 H0) as [X3 X4]. rewrite B0 in X3, X4. rewrite X1, X2, X3, X4, (S3 2 ltac:(lia)), (sum_out_unproduced inner 0 So) in C1. lra. }
    rewrite T0.
    assert (Step : forall F' f, injective_on f all -> f oc = e -> length F' = length inner -> Forall halves F' ->
       (2 * sum_in 0 inner F' == sum_in 0 (layer (Z.to_nat m)) F1)%Q ->
       (forall c, In c all -> c <> 0 -> c <> oc -> (sum_in c inner F' == sum_out c inner F')%Q) ->
       (forall nd0 f0, In (nd0, f0) (combine (rename f inner) F') -> In (nd0, f0) (combine (layer (Z.to_nat m) ++ rename fa inner ++ rename fb inner) (F1 ++ F2 ++ F3))) ->
       In (nd, (ff, g)) (combine (rename f inner) F') ->
       (inject_Z (2 * m + 2 * k) * g <= sum_in 0 (layer (Z.to_nat m)) F1 + inject_Z (2 * k) * M)%Q).
    { intros F' f Inj fo LF HF T C Inc I'. apply combine_rename_inv in I'. destruct I' as (nd0 & -> & I').
      assert (In nd0 inner) as In0 by (apply in_combine_l in I'; exact I').
      assert (B : (inject_Z (m + k) * g <= sum_in 0 inner F' + inject_Z k * M)%Q).
      { apply (Bo F' M) with (nd := nd0) (ff := ff); auto.
        - intros c N0 No. destruct (in_dec Z.eq_dec c all) as [Hc|Hc]; [apply C; assumption|].
          assert (Z1 : consumed inner c = 0 /\ produced inner c = 0).
          { split; [destruct (Z.eq_dec (consumed inner c) 0)|destruct (Z.eq_dec (produced inner c) 0)]; auto; exfalso; apply Hc; apply in_consumed; auto. }
          (* a colour that does not occur *)
          assert (W : forall net F0, consumed net c = 0 -> (sum_in c net F0 == 0)%Q).
          { clear. induction net as [|nd net IH]; intros F P; [reflexivity|]. rewrite consumed_cons in P.
            assert (0 <= is_colour c (fst (fst nd)) /\ 0 <= is_colour c (snd (fst nd)) /\ 0 <= consumed net c).
            { unfold consumed. pose proof (occurs_nonneg c). unfold is_colour. destruct (fst (fst nd)), (snd (fst nd)); repeat match goal with |- context [if ?b then _ else _] => destruct b end; repeat split; try lia; apply H. }
            destruct F as [|[[fa fb] g] F]; [reflexivity|]. cbn [sum_in]. rewrite IH by lia. unfold isq.
            replace (is_colour c (fst (fst nd))) with 0 by lia. replace (is_colour c (snd (fst nd))) with 0 by lia. change (inject_Z 0) with 0%Q. lra. }
          rewrite W by apply Z1. rewrite sum_out_unproduced by apply Z1. reflexivity.
        - intros nd1 fa1 fb1 g1 I1. pose proof (Low _ _ _ _ (Inc _ _ (combine_rename f _ _ _ _ I1))) as [Q1 Q2].
          unfold map_splitter in Q1, Q2. cbn [fst snd] in Q1, Q2. split; intros EE; [apply Q1|apply Q2]; rewrite EE; cbn; congruence.
        - unfold map_splitter in O. cbn [fst snd] in O.
          assert (U : forall x, option_map f x = Some e -> (x = fst (snd nd0) \/ x = snd (snd nd0)) -> x = Some oc).
          { intros [c|] E' Hx; [|discriminate]. cbn in E'. injection E' as E'. f_equal. apply Inj; auto; [|congruence].
            apply (colour_of_slot inner nd0 (Some c) In0); [tauto|reflexivity]. }
          destruct O as [O|O]; [left|right]; apply U; auto. }
      rewrite (inject_Z_mult 2 k). replace (2 * m + 2 * k) with (2 * (m + k)) by lia. rewrite inject_Z_mult. change (inject_Z 2) with 2%Q. lra. }
    rewrite combine_app in I by (symmetry; exact L1). rewrite combine_app in I by (symmetry; exact L2).
    apply in_app_or in I. destruct I as [I|I].
    + exfalso. apply in_combine_l in I. apply repeat_spec in I. subst nd. cbn in O. destruct O as [[= O]|[= O]]; lia.
    + unfold rename in L2, L3. rewrite map_length in L2, L3.
      assert (Inc : forall nd0 f0, In (nd0, f0) (combine (rename fa inner) F2 ++ combine (rename fb inner) F3) -> In (nd0, f0) (combine (layer (Z.to_nat m) ++ rename fa inner ++ rename fb inner) (F1 ++ F2 ++ F3))).
      { intros nd0 f0 H. rewrite combine_app by (symmetry; exact L1). apply in_or_app. right. rewrite combine_app by (unfold rename; rewrite map_length; symmetry; exact L2). exact H. }
      apply in_app_or in I. destruct I as [I|I].
      * apply (Step F2 fa); auto.
        -- intros c Hc N0 No. pose proof (Cons (fa c) ltac:(apply DA; exact Hc)) as C1.
           assert (Ne : fa c <> e) by (intros E; apply No; apply AI; auto; congruence). specialize (C1 Ne).
           destruct (Sp (fa c)) as [C2 C3]. rewrite C2, C3 in C1. clear C2 C3.
           assert (Nb : forall c', In c' all -> fb c' <> fa c) by (intros c' Hc' E; apply No; apply (DAB c c'); auto).
           destruct (sum_other fb inner (fa c) Nb F3) as [X1 X2]. destruct (SA c Hc) as [X3 X4].
           assert (N1 : fa c <> 1) by (intros E; apply N0; apply AI; auto; congruence). destruct (DA c Hc) as [Z0 Z2].
           rewrite X1, X2, X3, X4, (S3 _ Z0), (S4 _ N1 Z2) in C1. lra.
        -- intros nd0 f0 H. apply Inc. apply in_or_app. left. exact H.
      * apply (Step F3 fb); auto.
        -- intros c Hc N0 No. pose proof (Cons (fb c) ltac:(apply DB; exact Hc)) as C1.
           assert (Ne : fb c <> e) by (intros E; apply No; apply BI; auto; congruence). specialize (C1 Ne).
           destruct (Sp (fb c)) as [C2 C3]. rewrite C2, C3 in C1. clear C2 C3.
           assert (Na : forall c', In c' all -> fa c' <> fb c) by (intros c' Hc' E; apply No; apply (DBA c' c); auto).
           destruct (sum_other fa inner (fb c) Na F2) as [X1 X2]. destruct (SB c Hc) as [X3 X4].
           assert (N2 : fb c <> 2) by (intros E; apply N0; apply BI; auto; congruence). destruct (DB c Hc) as [Z0 Z1].
           rewrite X1, X2, X3, X4, (S3 _ Z0), (S4 _ Z1 N2) in C1. lra.
        -- intros nd0 f0 H. apply Inc. apply in_or_app. right. exact H.
Qed.
