(** Proofs about simplify: abstract networks and single steps. *)
From Coq Require Import ZArith QArith List Bool Lia Permutation Lqa.
From Verif Require Import Spec_Simplify.
Import ListNotations.
Local Open Scope Q_scope.

(** ** Abstract nodes: the lists of inputs and outputs. *)
Definition node := (list Z * list Z)%type.
Definition Ins (N : list node) : list Z := flat_map fst N.
Definition Outs (N : list node) : list Z := flat_map snd N.
Definition ashares (F : Z -> Q) (n : node) : Prop :=
  total F (fst n) == total F (snd n) /\ forall x y, In x (snd n) -> In y (snd n) -> F x == F y.
Definition aflow (N : list node) (F : Z -> Q) : Prop := forall n, In n N -> ashares F n.
Definition asingle (N : list node) : Prop := NoDup (Ins N) /\ NoDup (Outs N).
Definition aproper (N : list node) : Prop := forall n, In n N -> fst n <> [] /\ snd n <> [].
Definition inner (N : list node) (c : Z) : Prop := In c (Ins N) /\ In c (Outs N).
Definition aenters (N : list node) (c : Z) : Prop := In c (Ins N) /\ ~ In c (Outs N).
Definition aleaves (N : list node) (c : Z) : Prop := In c (Outs N) /\ ~ In c (Ins N).
Definition aabsent (N : list node) (c : Z) : Prop := ~ In c (Ins N) /\ ~ In c (Outs N).

Definition like (n m : node) : Prop := Permutation (fst n) (fst m) /\ Permutation (snd n) (snd m).
Definition equiv (N M : list node) : Prop := exists L, Permutation N L /\ Forall2 like L M.

Lemma nodup_parts (l m : list Z) : NoDup (l ++ m) -> NoDup l /\ NoDup m /\ forall c, In c l -> ~ In c m.
Proof.
  induction l as [|x l IH]; intros D; [split; [constructor|]; split; [exact D|intros c []]|]. inversion D as [|? ? D1 D2]; subst. destruct (IH D2) as (I1 & I2 & I3). rewrite in_app_iff in D1. split; [constructor; tauto|]. split; [exact I2|]. intros c [<-|Hc]; [tauto|auto].
Qed.
Lemma nodup_join (l m : list Z) : NoDup l -> NoDup m -> (forall c, In c l -> ~ In c m) -> NoDup (l ++ m).
Proof.
  induction 1 as [|x l Hx Hl IH]; intros Hm D; [exact Hm|]. cbn. constructor; [rewrite in_app_iff; intros [H|H]; [contradiction|apply (D x (or_introl eq_refl) H)]|apply IH; [exact Hm|intros y Hy; apply D; right; exact Hy]].
Qed.
Lemma total_cons F x l : total F (x :: l) = F x + total F l. Proof. reflexivity. Qed.
Lemma total_perm F l m : Permutation l m -> total F l == total F m.
Proof.
  induction 1; [reflexivity| | |]; unfold total in *; cbn in *; [rewrite IHPermutation; reflexivity|ring|rewrite IHPermutation1; exact IHPermutation2].
Qed.
Lemma total_ext F G l : (forall c, In c l -> F c == G c) -> total F l == total G l.
Proof. induction l as [|x l IH]; intros H; [reflexivity|]. rewrite !total_cons, (H x (or_introl eq_refl)), IH by (intros; apply H; right; assumption). reflexivity. Qed.
Lemma total_map F (f : Z -> Z) l : total F (map f l) = total (fun c => F (f c)) l.
Proof. unfold total. rewrite map_map. reflexivity. Qed.
Lemma total_filter F (p : Z -> bool) l : (forall c, In c l -> p c = false -> F c == 0) -> total F (filter p l) == total F l.
Proof.
  induction l as [|x l IH]; intros H; [reflexivity|]. cbn [filter]. specialize (IH ltac:(intros; apply H; [right|]; assumption)). destruct (p x) eqn:E; rewrite !total_cons, IH; [reflexivity|]. rewrite (H x (or_introl eq_refl) E). ring.
Qed.
Lemma total_const F v l : (forall c, In c l -> F c == v) -> total F l == inject_Z (Z.of_nat (length l)) * v.
Proof.
  induction l as [|x l IH]; intros H; [cbn; ring|]. rewrite total_cons, (H x (or_introl eq_refl)), IH by (intros; apply H; right; assumption). cbn [length]. rewrite Nat2Z.inj_succ. unfold Z.succ. rewrite inject_Z_plus. ring.
Qed.
Lemma total_nonneg F l : (forall c, In c l -> 0 <= F c) -> 0 <= total F l.
Proof. induction l as [|x l IH]; intros H; [apply Qle_refl|]. rewrite total_cons. pose proof (H x (or_introl eq_refl)). specialize (IH ltac:(intros; apply H; right; assumption)). lra. Qed.
Lemma total_zero F l : (forall c, In c l -> 0 <= F c) -> total F l == 0 -> forall c, In c l -> F c == 0.
Proof.
  induction l as [|x l IH]; intros H Z c I; [destruct I|]. rewrite total_cons in Z. pose proof (H x (or_introl eq_refl)). pose proof (total_nonneg F l ltac:(intros; apply H; right; assumption)).
  destruct I as [<-|I]; [lra|]. apply IH; [intros; apply H; right; assumption|lra|exact I].
Qed.
Lemma ashares_ext F G n : (forall c, In c (fst n) \/ In c (snd n) -> F c == G c) -> ashares F n -> ashares G n.
Proof.
  intros H [T S]. split.
  - rewrite <- (total_ext F G (fst n)), <- (total_ext F G (snd n)); auto.
  - intros x y Hx Hy. rewrite <- !H by auto. apply S; assumption.
Qed.
Lemma ashares_like F n m : like n m -> ashares F n -> ashares F m.
Proof.
  intros [P Q] [T S]. split; [rewrite <- (total_perm F _ _ P), <- (total_perm F _ _ Q); exact T|]. intros x y Hx Hy. apply S; eapply Permutation_in; try eassumption; apply Permutation_sym; exact Q.
Qed.
Lemma like_sym n m : like n m -> like m n. Proof. intros [P Q]. split; apply Permutation_sym; assumption. Qed.
Lemma like_refl n : like n n. Proof. split; apply Permutation_refl. Qed.
Lemma equiv_refl N : equiv N N.
Proof. exists N. split; [apply Permutation_refl|]. induction N; constructor; auto using like_refl. Qed.
Lemma equiv_perm N M : Permutation N M -> equiv N M.
Proof. intros P. exists M. split; [exact P|]. clear. induction M; constructor; auto using like_refl. Qed.
Lemma equiv_Ins N M : equiv N M -> Permutation (Ins N) (Ins M).
Proof.
  intros (L & P & F). rewrite (Permutation_flat_map fst P). clear P N. induction F as [|n m L M [H _] F IH]; [apply Permutation_refl|]. cbn. apply Permutation_app; assumption.
Qed.
Lemma equiv_Outs N M : equiv N M -> Permutation (Outs N) (Outs M).
Proof.
  intros (L & P & F). rewrite (Permutation_flat_map snd P). clear P N. induction F as [|n m L M [_ H] F IH]; [apply Permutation_refl|]. cbn. apply Permutation_app; assumption.
Qed.
Lemma equiv_flow N M F : equiv N M -> aflow N F <-> aflow M F.
Proof.
  intros (L & P & E). assert (X : aflow N F <-> aflow L F) by (split; intros H n I; apply H; eapply Permutation_in; try eassumption; apply Permutation_sym; exact P). rewrite X. clear X P N.
  induction E as [|n m L M H E IH]; [tauto|]. unfold aflow in *. cbn [In]. split; intros G k [<-|I].
  - apply (ashares_like F n); [exact H|apply G; left; reflexivity].
  - apply (proj1 IH); [intros k' J; apply G; right; exact J|exact I].
  - apply (ashares_like F m); [apply like_sym; exact H|apply G; left; reflexivity].
  - apply (proj2 IH); [intros k' J; apply G; right; exact J|exact I].
Qed.
Lemma equiv_in_ins N M c : equiv N M -> In c (Ins N) <-> In c (Ins M).
Proof. intros E. split; apply Permutation_in; [|apply Permutation_sym]; apply equiv_Ins; exact E. Qed.
Lemma equiv_in_outs N M c : equiv N M -> In c (Outs N) <-> In c (Outs M).
Proof. intros E. split; apply Permutation_in; [|apply Permutation_sym]; apply equiv_Outs; exact E. Qed.
Lemma equiv_single N M : equiv N M -> asingle N -> asingle M.
Proof. intros E [H1 H2]. split; [exact (Permutation_NoDup (equiv_Ins _ _ E) H1)|exact (Permutation_NoDup (equiv_Outs _ _ E) H2)]. Qed.
Lemma equiv_proper N M : equiv N M -> aproper N <-> aproper M.
Proof.
  intros (L & P & E). assert (X : aproper N <-> aproper L) by (split; intros H n I; apply H; eapply Permutation_in; try eassumption; apply Permutation_sym; exact P). rewrite X. clear X P N.
  assert (Y : forall n m : node, like n m -> fst n <> [] /\ snd n <> [] -> fst m <> [] /\ snd m <> []).
  { intros n m [A B] [C D]. split; intros Z; rewrite Z in *; [apply C|apply D]; apply Permutation_nil, Permutation_sym; assumption. }
  induction E as [|n m L M H E IH]; [tauto|]. unfold aproper in *. cbn [In]. split; intros G k [<-|I].
  - apply (Y n); [exact H|apply G; left; reflexivity].
  - apply (proj1 IH); [intros k' J; apply G; right; exact J|exact I].
  - apply (Y m); [apply like_sym; exact H|apply G; left; reflexivity].
  - apply (proj2 IH); [intros k' J; apply G; right; exact J|exact I].
Qed.

(** ** Steps *)
(** What a step does to the ends: [r] names the belts from outside. *)
Definition ends_step (N N' : list node) (r : Z -> Z) : Prop :=
  (forall c, ~ In c (Ins N) -> r c = c) /\
  (forall c, aenters N c -> aenters N' (r c) \/ (aleaves N (r c) /\ aabsent N' (r c))) /\
  (forall c, aleaves N c -> aleaves N' c \/ (aabsent N' c /\ exists d, aenters N d /\ r d = c)) /\
  (forall c, aabsent N c -> aabsent N' c) /\
  (forall c d, ~ In c (Outs N) -> ~ In d (Outs N) -> r c = r d -> c = d) /\
  (forall c, aleaves N' c -> aleaves N c) /\
  (forall d, aenters N' d -> exists c, aenters N c /\ r c = d).
(** A step that loses no flow. *)
Definition weak_step (N N' : list node) (r : Z -> Z) : Prop :=
  (forall c, ~ In c (Ins N) -> r c = c) /\
  (forall F, (forall c, 0 <= F c) -> aflow N F -> exists F', (forall c, 0 <= F' c) /\ aflow N' F' /\ forall c, ~ inner N c -> F' (r c) == F c) /\
  (forall c, ~ inner N c -> ~ inner N' (r c)) /\
  (asingle N -> asingle N').
(** A step that keeps the flows and the ends. *)
Definition strong_step (N N' : list node) (r : Z -> Z) : Prop :=
  ends_step N N' r /\
  (forall F, aflow N F -> exists F', aflow N' F' /\ forall c, ~ inner N c -> F' (r c) == F c) /\
  (forall F', aflow N' F' -> exists F, aflow N F /\ forall c, ~ inner N c -> F c == F' (r c)) /\
  aproper N'.

Lemma ends_inner N N' r c : ends_step N N' r -> ~ inner N c -> ~ inner N' (r c).
Proof.
  intros (E1 & E2 & E3 & E4 & _) H. unfold inner, aenters, aleaves, aabsent in *.
  destruct (in_dec Z.eq_dec c (Ins N)) as [I|I], (in_dec Z.eq_dec c (Outs N)) as [J|J]; [tauto| | |].
  - destruct (E2 c (conj I J)) as [X|X]; tauto.
  - rewrite (E1 c I). destruct (E3 c (conj J I)) as [X|[X _]]; tauto.
  - rewrite (E1 c I). specialize (E4 c (conj I J)). tauto.
Qed.
Lemma ends_equiv N N' M M' r : equiv N M -> equiv N' M' -> ends_step M M' r -> ends_step N N' r.
Proof.
  intros E E' (W1 & W4 & W5 & W6 & W7 & W8 & W9). unfold ends_step, aenters, aleaves, aabsent in *.
  split; [intros c H; apply W1; rewrite <- (equiv_in_ins _ _ c E); exact H|]. split; [|split; [|split; [|split; [|split]]]].
  - intros c. rewrite (equiv_in_ins _ _ c E), (equiv_in_outs _ _ c E), (equiv_in_ins _ _ (r c) E), (equiv_in_outs _ _ (r c) E), (equiv_in_ins _ _ (r c) E'), (equiv_in_outs _ _ (r c) E'). apply W4.
  - intros c. rewrite (equiv_in_ins _ _ c E), (equiv_in_outs _ _ c E), (equiv_in_ins _ _ c E'), (equiv_in_outs _ _ c E'). intros H. destruct (W5 c H) as [H'|(H' & d & D1 & D2)]; [left; exact H'|right]. split; [exact H'|]. exists d. rewrite (equiv_in_ins _ _ d E), (equiv_in_outs _ _ d E). auto.
  - intros c. rewrite (equiv_in_ins _ _ c E), (equiv_in_outs _ _ c E), (equiv_in_ins _ _ c E'), (equiv_in_outs _ _ c E'). apply W6.
  - intros c d. rewrite (equiv_in_outs _ _ c E), (equiv_in_outs _ _ d E). apply W7.
  - intros c. rewrite (equiv_in_ins _ _ c E), (equiv_in_outs _ _ c E), (equiv_in_ins _ _ c E'), (equiv_in_outs _ _ c E'). apply W8.
  - intros d. rewrite (equiv_in_ins _ _ d E'), (equiv_in_outs _ _ d E'). intros H. destruct (W9 d H) as (c & H' & K). exists c. rewrite (equiv_in_ins _ _ c E), (equiv_in_outs _ _ c E). auto.
Qed.
Lemma weak_equiv N N' M M' r : equiv N M -> equiv N' M' -> weak_step M M' r -> weak_step N N' r.
Proof.
  intros E E' (W1 & W2 & W4 & W3). split; [intros c H; apply W1; rewrite <- (equiv_in_ins _ _ c E); exact H|]. split; [|split].
  - intros F P H. apply (equiv_flow _ _ F E) in H. destruct (W2 F P H) as (F' & P' & H' & K). exists F'. split; [exact P'|]. split; [apply (equiv_flow _ _ F' E'); exact H'|]. intros c I. apply K. unfold inner in *. rewrite <- (equiv_in_ins _ _ c E), <- (equiv_in_outs _ _ c E). exact I.
  - intros c. unfold inner in *. rewrite (equiv_in_ins _ _ c E), (equiv_in_outs _ _ c E), (equiv_in_ins _ _ (r c) E'), (equiv_in_outs _ _ (r c) E'). apply W4.
  - intros S. apply (equiv_single _ _ E) in S. apply W3 in S. destruct S as [S1 S2]. split; [exact (Permutation_NoDup (Permutation_sym (equiv_Ins _ _ E')) S1)|exact (Permutation_NoDup (Permutation_sym (equiv_Outs _ _ E')) S2)].
Qed.
Lemma strong_equiv N N' M M' r : equiv N M -> equiv N' M' -> strong_step M M' r -> strong_step N N' r.
Proof.
  intros E E' (W1 & W2 & W3 & W8). split; [exact (ends_equiv _ _ _ _ _ E E' W1)|]. split; [|split].
  - intros F H. apply (equiv_flow _ _ F E) in H. destruct (W2 F H) as (F' & H' & K). exists F'. split; [apply (equiv_flow _ _ F' E'); exact H'|]. intros c I. apply K. unfold inner in *. rewrite <- (equiv_in_ins _ _ c E), <- (equiv_in_outs _ _ c E). exact I.
  - intros F H. apply (equiv_flow _ _ F E') in H. destruct (W3 F H) as (F' & H' & K). exists F'. split; [apply (equiv_flow _ _ F' E); exact H'|]. intros c I. apply K. unfold inner in *. rewrite <- (equiv_in_ins _ _ c E), <- (equiv_in_outs _ _ c E). exact I.
  - apply (equiv_proper _ _ E'). exact W8.
Qed.

(** *** Erasing the belts of a splitter without inputs or without outputs *)
Definition eraseN (X : list Z) (n : node) : node := (filter (fun c => negb (existsb (Z.eqb c) X)) (fst n), filter (fun c => negb (existsb (Z.eqb c) X)) (snd n)).
Lemma keep_in X c : negb (existsb (Z.eqb c) X) = true <-> ~ In c X.
Proof.
  rewrite negb_true_iff. split.
  - intros H I. rewrite (proj2 (existsb_exists _ _)) in H; [discriminate|]. exists c. split; [exact I|apply Z.eqb_refl].
  - intros H. destruct (existsb (Z.eqb c) X) eqn:E; [|reflexivity]. exfalso. apply existsb_exists in E. destruct E as (d & I & Ed). apply Z.eqb_eq in Ed. subst d. exact (H I).
Qed.
Lemma Ins_erase X N : Ins (map (eraseN X) N) = filter (fun c => negb (existsb (Z.eqb c) X)) (Ins N).
Proof. induction N as [|n N IH]; [reflexivity|]. cbn. rewrite filter_app. unfold Ins in IH. rewrite IH. reflexivity. Qed.
Lemma Outs_erase X N : Outs (map (eraseN X) N) = filter (fun c => negb (existsb (Z.eqb c) X)) (Outs N).
Proof. induction N as [|n N IH]; [reflexivity|]. cbn. rewrite filter_app. unfold Outs in IH. rewrite IH. reflexivity. Qed.
Lemma shares_erase F X n : (forall c, In c X -> F c == 0) -> ashares F n -> ashares F (eraseN X n).
Proof.
  intros Z [T S]. assert (K : forall c, negb (existsb (Z.eqb c) X) = false -> F c == 0) by (intros c H; apply Z; apply negb_false_iff, existsb_exists in H; destruct H as (d & I & E); apply Z.eqb_eq in E; subst d; exact I).
  split; cbn [eraseN fst snd].
  - rewrite !total_filter by (intros; apply K; assumption). exact T.
  - intros x y Hx Hy. apply filter_In in Hx. apply filter_In in Hy. apply S; tauto.
Qed.
Lemma dead_in_step X N : weak_step (([], X) :: N) (map (eraseN X) N) (fun c => c).
Proof.
  split; [reflexivity|]. split; [|split].
  - intros F P H. exists F. split; [exact P|]. split; [|intros; reflexivity].
    assert (Z : forall c, In c X -> F c == 0).
    { destruct (H _ (or_introl eq_refl)) as [T _]. cbn [fst snd] in T. apply total_zero; [intros; apply P|]. rewrite <- T. reflexivity. }
    intros n I. apply in_map_iff in I. destruct I as (m & <- & I). apply shares_erase; [exact Z|]. apply H. right. exact I.
  - intros c H. unfold inner in *. rewrite Ins_erase, Outs_erase, !filter_In. cbn in H. rewrite in_app_iff in H. tauto.
  - intros [S1 S2]. split; [rewrite Ins_erase; apply NoDup_filter; exact S1|rewrite Outs_erase; apply NoDup_filter; cbn in S2; apply nodup_parts in S2; apply S2].
Qed.
Lemma dead_out_step X N : weak_step ((X, []) :: N) (map (eraseN X) N) (fun c => c).
Proof.
  split; [reflexivity|]. split; [|split].
  - intros F P H. exists F. split; [exact P|]. split; [|intros; reflexivity].
    assert (Z : forall c, In c X -> F c == 0).
    { destruct (H _ (or_introl eq_refl)) as [T _]. cbn [fst snd] in T. apply total_zero; [intros; apply P|]. rewrite T. reflexivity. }
    intros n I. apply in_map_iff in I. destruct I as (m & <- & I). apply shares_erase; [exact Z|]. apply H. right. exact I.
  - intros c H. unfold inner in *. rewrite Ins_erase, Outs_erase, !filter_In. cbn in H. rewrite in_app_iff in H. tauto.
  - intros [S1 S2]. split; [rewrite Ins_erase; apply NoDup_filter; cbn in S1; apply nodup_parts in S1; apply S1|rewrite Outs_erase; apply NoDup_filter; exact S2].
Qed.

(** *** A splitter with one input and one output *)
Definition swap (i o : Z) (c : Z) : Z := if (c =? i)%Z then o else c.
Definition renameN (i o : Z) (n : node) : node := (map (swap i o) (fst n), map (swap i o) (snd n)).
Lemma Ins_rename i o N : Ins (map (renameN i o) N) = map (swap i o) (Ins N).
Proof. induction N as [|n N IH]; [reflexivity|]. cbn. rewrite map_app. unfold Ins in IH. rewrite IH. reflexivity. Qed.
Lemma Outs_rename i o N : Outs (map (renameN i o) N) = map (swap i o) (Outs N).
Proof. induction N as [|n N IH]; [reflexivity|]. cbn. rewrite map_app. unfold Outs in IH. rewrite IH. reflexivity. Qed.
Lemma swap_in i o l c : In c (map (swap i o) l) <-> (c = o /\ In i l) \/ (c <> i /\ In c l).
Proof.
  rewrite in_map_iff. unfold swap. split.
  - intros (d & E & J). destruct (Z.eqb_spec d i) as [X|X]; [left; split; [congruence|rewrite <- X; exact J]|right; rewrite <- E; auto].
  - intros [[-> I]|[D I]]; [exists i; rewrite Z.eqb_refl; auto|exists c; destruct (Z.eqb_spec c i); [contradiction|auto]].
Qed.
Lemma swap_nodup i o l : NoDup l -> (In i l -> ~ In o l \/ o = i) -> NoDup (map (swap i o) l).
Proof.
  induction l as [|x l IH]; intros D H; [constructor|]. inversion D as [|? ? D1 D2]; subst. cbn. constructor.
  - intros I. apply swap_in in I. unfold swap in I. destruct (Z.eqb_spec x i) as [->|Dx].
    + destruct I as [[_ I]|[N I]]; [exact (D1 I)|]. destruct (H (or_introl eq_refl)) as [H'|H']; [apply H'; right; exact I|contradiction].
    + destruct I as [[E I]|[_ I]]; [subst x|exact (D1 I)]. destruct (H (or_intror I)) as [H'|H']; [apply H'; left; reflexivity|contradiction].
  - apply IH; [exact D2|]. intros I. destruct (H (or_intror I)) as [H'|H']; [left; intros J; apply H'; right; exact J|auto].
Qed.
Lemma shares_rename F i o n : ashares (fun c => F (swap i o c)) n <-> ashares F (renameN i o n).
Proof.
  unfold ashares. cbn [renameN fst snd]. rewrite !total_map. split; intros [T S]; (split; [exact T|]); intros x y Hx Hy.
  - apply in_map_iff in Hx. apply in_map_iff in Hy. destruct Hx as (x' & <- & Hx), Hy as (y' & <- & Hy). apply S; assumption.
  - apply S; apply in_map; assumption.
Qed.
Section Pass.
  Variables (i o : Z) (N : list node).
  Let M : list node := ([i], [o]) :: N.
  Hypothesis S : asingle M.
  Lemma pass_facts : ~ In i (Ins N) /\ NoDup (Ins N) /\ ~ In o (Outs N) /\ NoDup (Outs N).
  Proof. destruct S as [A B]. cbn in A, B. inversion A; inversion B; subst. auto. Qed.
  Lemma pass_forward F : aflow M F -> aflow (map (renameN i o) N) F /\ F o == F i.
  Proof.
    intros H. destruct (H _ (or_introl eq_refl)) as [T _]. cbn in T. assert (E : F o == F i) by lra. split; [|exact E].
    intros n I. apply in_map_iff in I. destruct I as (m & <- & I). apply shares_rename. apply (ashares_ext F); [|apply H; right; exact I]. intros c _. unfold swap. destruct (Z.eqb_spec c i) as [->|]; [symmetry; exact E|reflexivity].
  Qed.
  Lemma pass_single : asingle (map (renameN i o) N).
  Proof.
    destruct pass_facts as (A & B & C & D). split; [rewrite Ins_rename; apply swap_nodup; [exact B|intros I; contradiction]|rewrite Outs_rename; apply swap_nodup; [exact D|intros I; left; exact C]].
  Qed.
  Lemma pass_id c : ~ In c (Ins M) -> swap i o c = c.
  Proof. intros H. unfold swap. destruct (Z.eqb_spec c i) as [->|]; [exfalso; apply H; left; reflexivity|reflexivity]. Qed.
  Lemma pass_ends : ends_step M (map (renameN i o) N) (swap i o).
  Proof.
    destruct pass_facts as (A & B & C & D).
    split; [exact pass_id|]. split; [|split; [|split; [|split; [|split]]]].
    - intros c [E1 E2]. unfold aenters, aleaves, aabsent. rewrite !Ins_rename, !Outs_rename, !swap_in. cbn in E1, E2. unfold swap. destruct (Z.eqb_spec c i) as [->|Dc].
      + destruct (in_dec Z.eq_dec o (Ins N)) as [Io|Io].
        * left. assert (o <> i) by (intros ->; tauto). split; [right; auto|]. intros [[_ X]|[_ X]]; tauto.
        * right. assert (o <> i) by (intros ->; tauto). split; [cbn; split; [auto|intros [X|X]; [congruence|tauto]]|]. split; intros [[_ X]|[_ X]]; tauto.
      + left. destruct E1 as [E1|E1]; [congruence|]. split; [right; auto|]. intros [[X Y]|[_ X]]; [apply E2; left; congruence|tauto].
    - intros c [E1 E2]. unfold aleaves, aabsent, aenters. rewrite !Ins_rename, !Outs_rename, !swap_in. cbn in E1, E2. assert (Dc : c <> i) by (intros ->; tauto).
      destruct E1 as [->|E1].
      + destruct (in_dec Z.eq_dec i (Outs N)) as [Ii|Ii].
        * left. split; [left; auto|]. intros [[_ X]|[_ X]]; tauto.
        * right. split; [split; intros [[_ X]|[_ X]]; tauto|]. exists i. split; [cbn; split; [auto|intros [X|X]; [congruence|contradiction]]|]. unfold swap. rewrite Z.eqb_refl. reflexivity.
      + left. split; [right; auto|]. intros [[_ X]|[_ X]]; tauto.
    - intros c [E1 E2]. unfold aabsent. rewrite !Ins_rename, !Outs_rename, !swap_in. cbn in E1, E2. split; intros [[X _]|[_ X]]; try tauto; apply E2; auto.
    - intros c d Hc Hd. cbn in Hc, Hd. unfold swap. destruct (Z.eqb_spec c i), (Z.eqb_spec d i); intros E; subst; auto; exfalso; tauto.
    - intros c. unfold aleaves. rewrite Ins_rename, Outs_rename, !swap_in. cbn. intros [[[-> X]|[X Y]] Z]; [|split; [tauto|intros [E|E]; [congruence|tauto]]]. split; [auto|]. intros [E|E]; [subst o; contradiction|]. apply Z. right. split; [intros ->; contradiction|exact E].
    - intros d. unfold aenters. rewrite Ins_rename, Outs_rename, !swap_in. cbn. intros [[[_ Q]|[X Y]] Z]; [contradiction|]. unfold swap. destruct (Z.eq_dec d o) as [->|Do].
      + exists i. rewrite Z.eqb_refl. split; [|reflexivity]. split; [auto|]. intros [E|E]; [congruence|]. apply Z. left. auto.
      + exists d. destruct (Z.eqb_spec d i); [contradiction|]. split; [|reflexivity]. split; [auto|]. intros [E|E]; [congruence|]. apply Z. right. auto.
  Qed.
  Lemma pass_weak : weak_step M (map (renameN i o) N) (swap i o).
  Proof.
    split; [exact pass_id|]. split; [|split; [intros c; exact (ends_inner _ _ _ c pass_ends)|intros _; exact pass_single]]. intros F P H. destruct (pass_forward F H) as [H' E]. exists F. split; [exact P|]. split; [exact H'|]. intros c _. unfold swap. destruct (Z.eqb_spec c i) as [->|]; [exact E|reflexivity].
  Qed.
  Lemma pass_strong : aproper M -> strong_step M (map (renameN i o) N) (swap i o).
  Proof.
    intros P. destruct pass_facts as (A & B & C & D).
    split; [exact pass_ends|]. split; [|split].
    - intros F H. destruct (pass_forward F H) as [H' E]. exists F. split; [exact H'|]. intros c _. unfold swap. destruct (Z.eqb_spec c i) as [->|]; [exact E|reflexivity].
    - intros F H. exists (fun c => F (swap i o c)). split; [|intros; reflexivity]. intros n [<-|I].
      + split; [|intros x y [<-|[]] [<-|[]]; reflexivity]. cbn. unfold swap. rewrite Z.eqb_refl. destruct (Z.eqb_spec o i); reflexivity.
      + apply shares_rename. apply H. apply in_map. exact I.
    - intros n I. apply in_map_iff in I. destruct I as (m & <- & I). destruct (P m (or_intror I)) as [X Y]. cbn. split; [destruct (fst m)|destruct (snd m)]; try contradiction; discriminate.
  Qed.
End Pass.

(** *** Two splitters in a row *)
Section Merge.
  Variables (ia oa ib ob : list Z) (N : list node).
  Let M : list node := (ia, oa) :: (ib, ob) :: N.
  Let M' : list node := (ia, ob) :: N.
  Hypothesis S : asingle M.
  Hypothesis Pm : Permutation oa ib.
  Lemma merge_facts : (forall c, In c oa -> ~ In c ia /\ ~ In c ob /\ ~ In c (Ins N) /\ ~ In c (Outs N)) /\ (forall c, In c ib -> ~ In c ia) /\ asingle M'.
  Proof.
    destruct S as [A B]. cbn in A, B. rewrite app_assoc in A. 
    destruct (nodup_parts _ _ A) as (A1 & A2 & A3). destruct (nodup_parts _ _ A1) as (A4 & A5 & A6). destruct (nodup_parts _ _ B) as (B1 & B2 & B3). destruct (nodup_parts _ _ B2) as (B4 & B5 & B6).
    split; [|split].
    - intros c H. assert (H' : In c ib) by (eapply Permutation_in; eassumption). split; [intros K; exact (A6 c K H')|]. split; [intros K; apply (B3 c H); apply in_app_iff; auto|]. split; [intros K; apply (A3 c); [apply in_app_iff; auto|exact K]|]. intros K. apply (B3 c H). apply in_app_iff. auto.
    - intros c H K. exact (A6 c K H).
    - split; cbn; [|exact B2]. apply nodup_join; [exact A4|exact A2|]. intros c H. apply A3. apply in_app_iff. auto.
  Qed.
  Lemma merge_forward F : aflow M F -> aflow M' F.
  Proof.
    intros H n [<-|I]; [|apply H; right; right; exact I]. destruct (H _ (or_introl eq_refl)) as [T1 _]. destruct (H _ (or_intror (or_introl eq_refl))) as [T2 S2]. cbn [fst snd] in *. split; [cbn [fst snd]; rewrite T1, (total_perm F _ _ Pm); exact T2|exact S2].
  Qed.
  Lemma merge_ends : ends_step M M' (fun c => c).
  Proof.
    destruct merge_facts as (X1 & X2 & _). assert (Q : forall c, In c oa <-> In c ib) by (intros c; split; apply Permutation_in; [exact Pm|apply Permutation_sym; exact Pm]).
    split; [reflexivity|]. split; [|split; [|split; [|split; [|split]]]].
    - intros c [E1 E2]. left. cbn in *. rewrite !in_app_iff in *. split; cbn; rewrite !in_app_iff; [|tauto]. destruct E1 as [E|[E|E]]; auto. exfalso. apply E2. left. apply Q. exact E.
    - intros c [E1 E2]. left. cbn in *. rewrite !in_app_iff in *. split; cbn; rewrite !in_app_iff; [|tauto]. destruct E1 as [E|[E|E]]; auto. exfalso. apply E2. right. left. apply Q. exact E.
    - intros c [E1 E2]. cbn in *. rewrite !in_app_iff in *. split; cbn; rewrite !in_app_iff; tauto.
    - intros; assumption.
    - intros c [E1 E2]. cbn in *. rewrite !in_app_iff in *. split; cbn; rewrite !in_app_iff; [tauto|]. intros [E|[E|E]]; [tauto| |tauto]. apply Q in E. apply X1 in E. tauto.
    - intros c [E1 E2]. exists c. split; [|reflexivity]. cbn in *. rewrite !in_app_iff in *. split; cbn; rewrite !in_app_iff; [tauto|]. intros [E|[E|E]]; [|tauto|tauto]. apply X1 in E. tauto.
  Qed.
  Lemma merge_weak : weak_step M M' (fun c => c).
  Proof.
    split; [reflexivity|]. split; [|split; [intros c; exact (ends_inner _ _ _ c merge_ends)|intros _; apply merge_facts]]. intros F P H. exists F. split; [exact P|]. split; [apply merge_forward; exact H|]. intros; reflexivity.
  Qed.
  Lemma merge_strong : aproper M -> strong_step M M' (fun c => c).
  Proof.
    intros P. destruct merge_facts as (X1 & X2 & _). assert (Q : forall c, In c oa <-> In c ib) by (intros c; split; apply Permutation_in; [exact Pm|apply Permutation_sym; exact Pm]).
    split; [exact merge_ends|]. split; [|split].
    - intros F H. exists F. split; [apply merge_forward; exact H|]. intros; reflexivity.
    - intros F H. destruct (P _ (or_introl eq_refl)) as [_ Ne]. cbn in Ne.
      set (v := total F ia / inject_Z (Z.of_nat (length oa))). set (G := fun c => if existsb (Z.eqb c) oa then v else F c).
      assert (G1 : forall c, In c oa -> G c == v) by (intros c I; unfold G; rewrite (proj2 (existsb_exists _ _)); [reflexivity|exists c; split; [exact I|apply Z.eqb_refl]]).
      assert (G2 : forall c, ~ In c oa -> G c == F c). { intros c I. unfold G. destruct (existsb (Z.eqb c) oa) eqn:E; [|reflexivity]. exfalso. apply I. apply existsb_exists in E. destruct E as (d & J & E). apply Z.eqb_eq in E. subst d. exact J. }
      assert (Tv : total G oa == total F ia).
      { rewrite (total_const G v oa G1). unfold v. field. intros E. destruct oa; [contradiction|]. cbn [length] in E. rewrite Nat2Z.inj_succ in E. unfold Qeq in E. cbn in E. lia. }
      assert (Ti : total G ia == total F ia) by (apply total_ext; intros c I; apply G2; intros J; apply X1 in J; tauto).
      assert (To : total G ob == total F ob) by (apply total_ext; intros c I; apply G2; intros J; apply X1 in J; tauto).
      destruct (H _ (or_introl eq_refl)) as [T1 S1]. cbn [fst snd] in T1, S1.
      exists G. split.
      + intros n [<-|[<-|I]].
        * split; cbn [fst snd]; [rewrite Ti, Tv; reflexivity|]. intros x y Hx Hy. rewrite !G1 by assumption. reflexivity.
        * split; cbn [fst snd]; [rewrite <- (total_perm G _ _ Pm), Tv, To; exact T1|]. intros x y Hx Hy. rewrite !G2 by (intros J; apply X1 in J; tauto). apply S1; assumption.
        * apply (ashares_ext F); [|apply H; right; exact I]. intros c J. symmetry. apply G2. intros K. apply X1 in K. destruct K as (_ & _ & K1 & K2). destruct J as [J|J]; [apply K1|apply K2]; apply in_flat_map; exists n; auto.
      + intros c J. apply G2. intros K. apply J. split; cbn; rewrite !in_app_iff; [right; left; apply Q; exact K|auto].
    - intros n [<-|I]; [|apply P; right; right; exact I]. cbn. split; [apply (P (ia, oa)); left; reflexivity|apply (P (ib, ob)); right; left; reflexivity].
  Qed.
End Merge.
