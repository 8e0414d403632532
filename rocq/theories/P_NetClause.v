(** The clauses of the network-free balancer about numbers. *)
From Coq Require Import String ZArith List Bool Lia.
From Verif Require Import Spec_Cnf Spec_Tile M_Json M_Tile M_Util M_Card M_Network M_Template M_Grid M_Oracle M_Balancer M_Optimise M_NetFree
  P_Cnf P_Util P_Util2 P_Grid P_Template.
Import ListNotations.
Open Scope Z_scope.

Lemma removelast_length {A} (l : list A) : length (removelast l) = (length l - 1)%nat.
Proof. induction l as [|x [|y l] IH]; [reflexivity|reflexivity|]. change (removelast (x :: y :: l)) with (x :: removelast (y :: l)). cbn [length] in *. lia. Qed.
Lemma removelast_firstn' {A} (l : list A) : removelast l = firstn (length l - 1) l.
Proof.
  induction l as [|x [|y l] IH]; [reflexivity|reflexivity|]. change (removelast (x :: y :: l)) with (x :: removelast (y :: l)). rewrite IH. cbn [length].
  replace (S (S (length l)) - 1)%nat with (S (S (length l) - 1)) by lia. reflexivity.
Qed.
Lemma Forall_removelast {A} (P : A -> Prop) l : Forall P l -> Forall P (removelast l).
Proof. rewrite removelast_firstn'. apply Forall_firstn. Qed.

Lemma flat_map_const_length {A B} (f : A -> list B) n l : (forall x, In x l -> length (f x) = n) -> length (flat_map f l) = (length l * n)%nat.
Proof. induction l as [|x l IH]; intros H; [reflexivity|]. cbn [flat_map length]. rewrite app_length, (H x (or_introl eq_refl)), (IH (fun y Hy => H y (or_intror Hy))). lia. Qed.
Lemma app_inj_len {A} (x y x' y' : list A) : length x = length x' -> (x ++ y = x' ++ y')%list -> x = x' /\ y = y'.
Proof. revert x'. induction x as [|u x IH]; intros [|u' x'] L E; cbn in *; try lia; [auto|]. injection E as -> E. destruct (IH x' ltac:(lia) E). subst. auto. Qed.

(** ** Components *)
Lemma component_length b bits c : length (component b bits c) = bits.
Proof. apply fresh_length. Qed.
Lemma component_nonzero b bits c : 0 <= b -> Forall nonzero (component b bits c).
Proof.
  intros H. apply Forall_forall. intros v Hv. apply fresh_In in Hv. assert (0 <= Z.of_nat c * Z.of_nat bits) by (apply Z.mul_nonneg_nonneg; lia). unfold nonzero. lia.
Qed.
Lemma components_length b bits k : length (components b bits k) = (k * bits)%nat.
Proof.
  unfold components. rewrite (flat_map_const_length _ bits); [rewrite seq_length; reflexivity|]. intros c _. apply component_length.
Qed.
Lemma components_nonzero b bits k : 0 <= b -> Forall nonzero (components b bits k).
Proof.
  intros H. unfold components. apply Forall_forall. intros v Hv. apply in_flat_map in Hv. destruct Hv as (c & _ & Hv).
  pose proof (component_nonzero b bits c H) as F. rewrite Forall_forall in F. auto.
Qed.
(** Equal arrays have equal members. *)
Lemma components_equal a b b' bits k : value a (components b bits k) = value a (components b' bits k) ->
  forall c, (c < k)%nat -> value a (component b bits c) = value a (component b' bits c).
Proof.
  intros E c Hc. apply values_eq_value in E; [|rewrite !components_length; reflexivity]. apply values_eq_value; [rewrite !component_length; reflexivity|].
  unfold components, values in E. revert E. assert (H : In c (seq 0 k)) by (apply in_seq; lia). revert H. generalize (seq 0 k). clear Hc.
  induction l as [|x l IH]; intros H E; [destruct H|]. cbn [flat_map] in E. rewrite !map_app in E. apply app_inj_len in E; [|rewrite !map_length, !component_length; reflexivity].
  destruct E as [E1 E2]. destruct H as [->|H]; [exact E1|apply IH; assumption].
Qed.

(** ** Halving and splitting *)
Lemma halve_sound a in0 in1 out0 out1 carry cs :
  Forall nonzero in0 -> Forall nonzero in1 -> Forall nonzero out0 -> Forall nonzero out1 -> Forall nonzero carry ->
  halve in0 in1 out0 out1 carry = Some cs -> sat a cs = true ->
  value a in0 + value a in1 = 2 * value a out0 /\ value a out1 = value a out0.
Proof.
  intros N0 N1 M0 M1 NC E S. unfold halve in E. destruct in0 as [|x r]; [discriminate|]. destruct in1 as [|y s]; [discriminate|].
  inversion N0 as [|? ? Nx Nr]. inversion N1 as [|? ? Ny Ns]. subst.
  destruct (add_numbers r s out0 carry (Some x) false) as [sum|] eqn:Ea; [|discriminate]. cbn [obind] in E.
  destruct (set_numbers_equal out0 out1 false) as [same|] eqn:Es; [|discriminate]. cbn [obind] in E. apply Some_inj in E. subst cs.
  rewrite !sat_app_iff in S. destruct S as (S1 & S2 & S3). pose proof (add_numbers_sound r s out0 carry (Some x) false sum Nr Ns M0 NC Nx Ea a S1) as A.
  unfold add_sem in A. cbn [cval] in A. rewrite literals_same_sat in S2 by assumption. apply eqb_prop in S2.
  apply (set_numbers_equal_spec out0 out1 false same M0 M1 Es) in S3. rewrite !value_cons. rewrite <- S2. split; [lia|congruence].
Qed.
Lemma split_sound a input out0 out1 cs :
  Forall nonzero input -> Forall nonzero out0 -> Forall nonzero out1 -> length out0 = length input -> length out1 = length input ->
  split_flow input out0 out1 = Some cs -> sat a cs = true ->
  value a input = 2 * value a out0 /\ value a out1 = value a out0.
Proof.
  intros NI N0 N1 L0 L1 E S. unfold split_flow in E. destruct input as [|l r]; [discriminate|]. inversion NI as [|? ? Nl Nr]. subst. cbn [length] in L0, L1.
  destruct (set_numbers_equal r (removelast out0) false) as [e0|] eqn:E0; [|discriminate]. cbn [obind] in E.
  destruct (set_numbers_equal r (removelast out1) false) as [e1|] eqn:E1; [|discriminate]. cbn [obind] in E. apply Some_inj in E. subst cs.
  rewrite !sat_app_iff in S. destruct S as (S0 & S1 & S2 & S3). rewrite sat_one, satc_one in S0. rewrite !sat_cons_iff, !satc_one in S3. destruct S3 as (S3 & S4 & _).
  apply (set_numbers_equal_spec _ _ false e0 Nr (Forall_removelast _ _ N0) E0) in S1. apply (set_numbers_equal_spec _ _ false e1 Nr (Forall_removelast _ _ N1) E1) in S2.
  assert (X : forall o, Forall nonzero o -> length o = S (length r) -> evl a (- last o 0) = true -> value a o = value a (removelast o)).
  { intros o No Lo Hl. rewrite (last_firstn_value a o (length r) Lo). rewrite removelast_firstn', Lo. replace (S (length r) - 1)%nat with (length r) by lia.
    assert (last o 0 <> 0) by (apply (last_Forall nonzero); [intros ->; discriminate|exact No]). rewrite P_Cnf.evl_neg, negb_true_iff in Hl by assumption. rewrite Hl. cbn [Z.b2z]. lia. }
  rewrite (X out0 N0 L0 S3), (X out1 N1 L1 S4). rewrite <- S1, <- S2. rewrite value_cons. rewrite P_Cnf.evl_neg, negb_true_iff in S0 by assumption. rewrite S0. cbn [Z.b2z]. lia.
Qed.
Lemma add_some xs ys os carries ci : length ys = length xs -> length os = length xs \/ length os = S (length xs) -> (length xs <= length carries)%nat ->
  (ci <> None \/ xs <> []) -> exists cs, add_numbers xs ys os carries ci false = Some cs.
Proof.
  intros L1 L2 L3 Hc. unfold add_numbers. rewrite L1, Nat.eqb_refl. cbn [negb].
  assert (L2' : Nat.eqb (length os) (length xs) || Nat.eqb (length os) (S (length xs)) = true) by (apply orb_true_iff; rewrite !Nat.eqb_eq; exact L2).
  rewrite L2'. cbn [negb].
  assert (X : forall xs ys os carries ci, length ys = length xs -> (length xs <= length os)%nat -> (length xs <= length carries)%nat -> (ci <> None \/ xs <> []) ->
    exists cs l, add_loop xs ys os ci carries = Some (cs, Some l)).
  { clear. induction xs as [|x xs IH]; intros [|y ys] [|o os] [|c cs] ci L1 L2 L3 Hc; cbn [length] in *; try lia.
    1-4: destruct ci as [l|]; [|destruct Hc; congruence]; cbn [add_loop]; eauto.
    - destruct (IH ys os cs (Some c)) as (cs' & l & E); try lia; [left; discriminate|]. cbn [add_loop]. rewrite E. eauto. }
  destruct (X xs ys os carries ci L1 ltac:(lia) L3 Hc) as (cs & l & E). rewrite E. destruct (Nat.ltb _ _); eexists; reflexivity.
Qed.
Lemma halve_some in0 in1 out0 out1 carry : length in0 <> 0%nat -> length in1 = length in0 -> length out0 = length in0 -> length out1 = length in0 ->
  (length in0 - 1 <= length carry)%nat -> exists cs, halve in0 in1 out0 out1 carry = Some cs.
Proof.
  intros H L1 L2 L3 L4. unfold halve. destruct in0 as [|x r]; [contradiction H; reflexivity|]. destruct in1 as [|y s]; [discriminate|]. cbn [length] in *.
  destruct (add_some r s out0 carry (Some x)) as [cs ->]; try lia; [left; discriminate|]. cbn [obind].
  destruct (proj2 (set_numbers_equal_some out0 out1 false)) as [e ->]; [right; lia|]. eexists. reflexivity.
Qed.
Lemma split_some input out0 out1 : length input <> 0%nat -> length out0 = length input -> length out1 = length input -> exists cs, split_flow input out0 out1 = Some cs.
Proof.
  intros H L1 L2. unfold split_flow. destruct input as [|x r]; [contradiction H; reflexivity|]. cbn [length] in *.
  destruct (proj2 (set_numbers_equal_some r (removelast out0) false)) as [e ->]; [right; rewrite removelast_length; lia|]. cbn [obind].
  destruct (proj2 (set_numbers_equal_some r (removelast out1) false)) as [e' ->]; [right; rewrite removelast_length; lia|]. eexists. reflexivity.
Qed.

(** The two arrays of inputs of a splitter are not the same. *)
Lemma differ_sound a pre xs ys diffs : Forall nonzero pre -> Forall nonzero xs -> Forall nonzero ys -> Forall nonzero diffs ->
  length ys = length xs -> length diffs = length xs ->
  sat a (differ pre xs ys diffs) = true -> (forall l, In l pre -> evl a l = true) -> value a xs <> value a ys.
Proof.
  intros NP NX NY ND L1 L2 S Hp E. unfold differ in S. rewrite sat_app_iff in S. destruct S as [S1 S2].
  rewrite sat_implies in S2 by exact NP. apply orb_true_iff in S2. destruct S2 as [S2|S2].
  { apply negb_true_iff in S2. rewrite <- not_true_iff_false in S2. apply S2. apply forallb_forall. exact Hp. }
  rewrite sat_one, satc_In in S2. destruct S2 as (l & Hl & El). apply values_eq_value in E; [|lia].
  revert S1 E Hl. revert xs ys L1 L2 NX NY. induction diffs as [|z diffs IH]; intros xs ys L1 L2 NX NY S1 E Hl; [destruct Hl|].
  destruct xs as [|x xs]; [discriminate|]. destruct ys as [|y ys]; [discriminate|]. cbn [combine flat_map] in S1. rewrite sat_app_iff in S1. destruct S1 as [S0 S1].
  inversion NX. inversion NY. inversion ND. subst. unfold values in E. cbn [map] in E. injection E as E1 E2. destruct Hl as [->|Hl].
  - rewrite sat_implies in S0 by exact NP. apply orb_true_iff in S0. destruct S0 as [S0|S0].
    { apply negb_true_iff in S0. rewrite <- not_true_iff_false in S0. apply S0. apply forallb_forall. exact Hp. }
    cbn [fst snd] in S0. rewrite !sat_cons_iff, !satc_In in S0. destruct S0 as ((u & Hu & Eu) & (v & Hv & Ev) & _).
    assert (N : forall w, nonzero w -> evl a (- w) = negb (evl a w)) by (intros w; apply P_Cnf.evl_neg).
    destruct Hu as [<-|[<-|[<-|[]]]], Hv as [<-|[<-|[<-|[]]]]; rewrite ?N in * by assumption; rewrite ?El, ?E1 in *; destruct (evl a x), (evl a y); discriminate.
  - apply (IH ltac:(assumption) xs ys); cbn [length] in *; auto; lia.
Qed.
