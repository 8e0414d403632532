(** A small complete search for the examples: a truthful solver. *)
From Coq Require Import ZArith List Bool Lia.
From Verif Require Import Spec_Cnf Spec_Colours P_Cnf.
Import ListNotations.
Open Scope Z_scope.

Definition assign (l : Z) (cs : list (list Z)) : list (list Z) :=
  map (filter (fun x => negb (x =? - l))) (filter (fun c => negb (existsb (Z.eqb l) c)) cs).
Definition pick (cs : list (list Z)) : option Z :=
  match find (fun c => Nat.eqb (length c) 1) cs with
  | Some (l :: _) => Some l
  | _ => match cs with (l :: _) :: _ => Some l | _ => None end
  end.
Fixpoint dpll (fuel : nat) (cs : list (list Z)) : option (list Z) :=
  match fuel with
  | O => None
  | S f =>
      if existsb (fun c => Nat.eqb (length c) 0) cs then None else
      match pick cs with
      | None => Some []
      | Some l =>
          match dpll f (assign l cs) with
          | Some m => Some (l :: m)
          | None => match dpll f (assign (- l) cs) with Some m => Some (- l :: m) | None => None end
          end
      end
  end.
Definition weight (cs : list (list Z)) : nat := fold_right (fun c n => (length c + n)%nat) O cs.
Definition variables (cs : list (list Z)) : list Z := nodup Z.eq_dec (flat_map (map Z.abs) cs).
Definition dpll_solver (cs : list (list Z)) : option (list Z) :=
  match dpll (S (weight cs)) cs with
  | None => None
  | Some m => Some (m ++ map Z.opp (filter (fun v => negb (existsb (fun l => Z.abs l =? v) m)) (variables cs)))
  end.

Definition appears (v : Z) (cs : list (list Z)) : Prop := exists c l, In c cs /\ In l c /\ Z.abs l = v.
Lemma pick_in cs l : pick cs = Some l -> exists c, In c cs /\ In l c.
Proof.
  unfold pick. destruct (find _ cs) as [[|x c]|] eqn:E.
  - destruct cs as [|[|y d] cs]; try discriminate. intros [= <-]. exists (y :: d). cbn. auto.
  - intros [= <-]. apply find_some in E. exists (x :: c). cbn. tauto.
  - destruct cs as [|[|y d] cs]; try discriminate. intros [= <-]. exists (y :: d). cbn. auto.
Qed.
Lemma pick_none cs : existsb (fun c => Nat.eqb (length c) 0) cs = false -> pick cs = None -> cs = [].
Proof.
  unfold pick. intros E. destruct (find _ cs) as [[|x c]|] eqn:F; [|discriminate|].
  - apply find_some in F. destruct F as [_ F]. discriminate.
  - destruct cs as [|[|y d] cs]; [reflexivity|cbn in E; discriminate|discriminate].
Qed.
Lemma assign_appears l cs v : l <> 0 -> appears v (assign l cs) -> appears v cs /\ v <> Z.abs l.
Proof.
  intros Nz (c & x & Hc & Hx & Hv). unfold assign in Hc. apply in_map_iff in Hc. destruct Hc as (d & <- & Hd). apply filter_In in Hd. destruct Hd as [Hd Hn]. apply filter_In in Hx. destruct Hx as [Hx Ho].
  split; [exists d, x; auto|]. intros E. rewrite negb_true_iff in Hn, Ho. apply Z.eqb_neq in Ho.
  assert (X : x = l) by lia. subst x. rewrite (proj2 (existsb_exists _ _)) in Hn; [discriminate|]. exists l. split; [exact Hx|apply Z.eqb_refl].
Qed.
Lemma assign_nonzero l cs : Forall (Forall nonzero) cs -> Forall (Forall nonzero) (assign l cs).
Proof.
  intros H. rewrite Forall_forall in *. intros c Hc. unfold assign in Hc. apply in_map_iff in Hc. destruct Hc as (d & <- & Hd). apply filter_In in Hd. destruct Hd as [Hd _]. apply H in Hd. rewrite Forall_forall in *. intros x Hx. apply filter_In in Hx. apply Hd. apply Hx.
Qed.
Lemma filter_le (f : Z -> bool) c : (length (filter f c) <= length c)%nat.
Proof. induction c as [|x c IH]; [reflexivity|]. cbn. destruct (f x); cbn; lia. Qed.
Lemma weight_filter l cs : (weight (assign l cs) <= weight cs)%nat.
Proof.
  induction cs as [|c cs IH]; [reflexivity|]. unfold assign. cbn [filter]. fold (assign l cs).
  pose proof (filter_le (fun x => negb (x =? - l)) c) as F.
  destruct (negb _); cbn [map weight fold_right]; unfold assign, weight in *; lia.
Qed.
Lemma weight_less l cs c : In c cs -> In l c -> (weight (assign l cs) < weight cs)%nat.
Proof.
  intros Hc Hl. induction cs as [|d cs IH]; [destruct Hc|]. unfold assign. cbn [filter]. destruct Hc as [->|Hc].
  - rewrite (proj2 (existsb_exists (Z.eqb l) c)) by (exists l; split; [exact Hl|apply Z.eqb_refl]). cbn [negb]. pose proof (weight_filter l cs) as W. unfold assign in W. cbn [weight fold_right]. fold (weight cs). destruct c; [destruct Hl|]. cbn [length]. lia.
  - specialize (IH Hc). pose proof (filter_le (fun x => negb (x =? - l)) d) as F.
    unfold assign in IH. destruct (negb _); cbn [map weight fold_right]; fold (weight (map (filter (fun x => negb (x =? - l))) (filter (fun c => negb (existsb (Z.eqb l) c)) cs))); fold (weight cs); lia.
Qed.
Lemma filter_less (f : Z -> bool) c x : In x c -> f x = false -> (length (filter f c) < length c)%nat.
Proof.
  induction c as [|y c IH]; intros I E; [destruct I|]. pose proof (filter_le f c) as F.
  cbn. destruct I as [->|I]; [rewrite E; cbn; lia|]. specialize (IH I E). destruct (f y); cbn; lia.
Qed.
Lemma weight_less_opp l cs c : In c cs -> In l c -> (weight (assign (- l) cs) < weight cs)%nat.
Proof.
  intros Hc Hl. induction cs as [|d cs IH]; [destruct Hc|]. unfold assign. cbn [filter]. destruct Hc as [->|Hc].
  - pose proof (weight_filter (- l) cs) as W. unfold assign in W. pose proof (filter_less (fun x => negb (x =? - - l)) c l Hl ltac:(cbn beta; rewrite Z.opp_involutive, Z.eqb_refl; reflexivity)) as D.
    destruct (negb (existsb (Z.eqb (- l)) c)); cbn [map weight fold_right] in *; unfold weight in *; lia.
  - specialize (IH Hc). pose proof (filter_le (fun x => negb (x =? - - l)) d) as F.
    unfold assign in IH. destruct (negb _); cbn [map weight fold_right] in *; unfold weight in *; lia.
Qed.
Lemma assign_sat a l cs : l <> 0 -> evl a l = true -> sat a cs = true -> sat a (assign l cs) = true.
Proof.
  intros Nz E. rewrite !sat_forall. intros H c Hc. unfold assign in Hc. apply in_map_iff in Hc. destruct Hc as (d & <- & Hd). apply filter_In in Hd. destruct Hd as [Hd _]. apply H in Hd. unfold satc in *. apply existsb_exists in Hd. destruct Hd as (x & Hx & Ex). apply existsb_exists. exists x. split; [|exact Ex].
  apply filter_In. split; [exact Hx|]. apply negb_true_iff. apply Z.eqb_neq. intros ->. rewrite evl_neg, E in Ex by exact Nz. discriminate.
Qed.
Lemma dpll_spec : forall fuel cs, (weight cs < fuel)%nat -> Forall (Forall nonzero) cs ->
  match dpll fuel cs with
  | None => forall a, sat a cs = false
  | Some m => NoDup (map Z.abs m) /\ (forall l, In l m -> l <> 0 /\ appears (Z.abs l) cs) /\ forall c, In c cs -> exists l, In l c /\ In l m
  end.
Proof.
  induction fuel as [|f IH]; intros cs W Nz; [lia|]. cbn [dpll]. destruct (existsb (fun c => Nat.eqb (length c) 0) cs) eqn:E.
  - intros a. apply existsb_exists in E. destruct E as ([|x c] & Hc & E); [|discriminate]. destruct (sat a cs) eqn:Sa; [|reflexivity]. rewrite sat_forall in Sa. apply Sa in Hc. discriminate.
  - destruct (pick cs) as [l|] eqn:P.
    + destruct (pick_in cs l P) as (c & Hc & Hl). assert (Nl : l <> 0) by (rewrite Forall_forall in Nz; apply Nz in Hc; rewrite Forall_forall in Hc; apply Hc; exact Hl).
      assert (Ap : appears (Z.abs l) cs) by (exists c, l; auto).
      assert (Lift : forall x m, (x = l \/ x = - l) -> (NoDup (map Z.abs m) /\ (forall l, In l m -> l <> 0 /\ appears (Z.abs l) (assign x cs)) /\ forall c, In c (assign x cs) -> exists l, In l c /\ In l m) ->
        NoDup (map Z.abs (x :: m)) /\ (forall l, In l (x :: m) -> l <> 0 /\ appears (Z.abs l) cs) /\ forall c, In c cs -> exists l, In l c /\ In l (x :: m)).
      { intros x m Hx (M1 & M2 & M3). assert (Nx : x <> 0) by lia. assert (Ax : Z.abs x = Z.abs l) by lia. split; [|split].
        - cbn. constructor; [|exact M1]. intros I. apply in_map_iff in I. destruct I as (y & Ey & Iy). apply M2 in Iy. destruct Iy as [_ Iy]. apply assign_appears in Iy; [|exact Nx]. lia.
        - intros y [<-|Hy]; [rewrite Ax; auto|]. apply M2 in Hy. destruct Hy as [H1 H2]. split; [exact H1|]. apply assign_appears in H2; [apply H2|exact Nx].
        - intros d Hd. destruct (existsb (Z.eqb x) d) eqn:Ex.
          + apply existsb_exists in Ex. destruct Ex as (y & Iy & Ey). apply Z.eqb_eq in Ey. subst y. exists x. cbn. auto.
          + destruct (M3 (filter (fun y => negb (y =? - x)) d)) as (y & Iy & My); [unfold assign; apply in_map; apply filter_In; rewrite Ex; auto|]. apply filter_In in Iy. exists y. cbn. tauto. }
      pose proof (IH (assign l cs)) as I1. pose proof (weight_less l cs c Hc Hl). specialize (I1 ltac:(lia) (assign_nonzero _ _ Nz)).
      destruct (dpll f (assign l cs)) as [m|]; [apply Lift; [auto|exact I1]|].
      pose proof (IH (assign (- l) cs)) as I2. pose proof (weight_less_opp l cs c Hc Hl). specialize (I2 ltac:(lia) (assign_nonzero _ _ Nz)).
      destruct (dpll f (assign (- l) cs)) as [m|]; [apply Lift; [auto|exact I2]|].
      intros a. destruct (sat a cs) eqn:Sa; [|reflexivity]. destruct (evl a l) eqn:El.
      * specialize (I1 a). rewrite (assign_sat a l cs Nl El Sa) in I1. discriminate.
      * specialize (I2 a). rewrite (assign_sat a (- l) cs) in I2; [discriminate|lia|rewrite evl_neg, El by exact Nl; reflexivity|exact Sa].
    + rewrite (pick_none cs E P). split; [constructor|]. split; [intros l []|intros c []].
Qed.
Lemma dpll_truthful : truthful dpll_solver.
Proof.
  intros cs Nz. unfold dpll_solver. pose proof (dpll_spec (S (weight cs)) cs ltac:(lia) Nz) as D. destruct (dpll (S (weight cs)) cs) as [m|]; [|exact D]. destruct D as (D1 & D2 & D3).
  set (rest := filter (fun v => negb (existsb (fun l => Z.abs l =? v) m)) (variables cs)).
  assert (Vp : forall v, In v (variables cs) <-> appears v cs).
  { intros v. unfold variables. rewrite nodup_In, in_flat_map. split; [intros (c & Hc & Hv); apply in_map_iff in Hv; destruct Hv as (l & E & Hl); exists c, l; auto|intros (c & l & Hc & Hl & E); exists c; split; [exact Hc|]; apply in_map_iff; exists l; auto]. }
  assert (Rp : forall v, In v rest -> 0 < v /\ ~ In v (map Z.abs m)).
  { intros v H. apply filter_In in H. destruct H as [H1 H2]. apply Vp in H1. destruct H1 as (c & l & Hc & Hl & <-). split.
    - rewrite Forall_forall in Nz. apply Nz in Hc. rewrite Forall_forall in Hc. apply Hc in Hl. unfold nonzero in Hl. lia.
    - intros I. apply in_map_iff in I. destruct I as (x & Ex & Ix). rewrite (proj2 (existsb_exists _ _)) in H2; [discriminate|]. exists x. split; [exact Ix|]. apply Z.eqb_eq. exact Ex. }
  assert (ND : NoDup (map Z.abs (m ++ map Z.opp rest))).
  { rewrite map_app, map_map. rewrite (map_ext_in _ (fun v => v) rest) by (intros v Hv; apply Rp in Hv; lia). rewrite map_id.
    assert (Nr : NoDup rest) by (apply NoDup_filter, NoDup_nodup).
    assert (Dj : forall v, In v (map Z.abs m) -> ~ In v rest) by (intros v H1 H2; apply Rp in H2; tauto). revert D1 Dj. generalize (map Z.abs m). induction l as [|x l IH]; intros Dl Dj; [exact Nr|].
    inversion Dl; subst. cbn. constructor; [rewrite in_app_iff; intros [H'|H']; [contradiction|]; apply (Dj x (or_introl eq_refl) H')|]. apply IH; [assumption|intros v Hv; apply Dj; right; exact Hv]. }
  split; [exact ND|]. split.
  - intros c l Hc Hl. assert (Nl : l <> 0) by (rewrite Forall_forall in Nz; apply Nz in Hc; rewrite Forall_forall in Hc; apply Hc; exact Hl). rewrite !in_app_iff.
    destruct (existsb (fun x => Z.abs x =? Z.abs l) m) eqn:E.
    + apply existsb_exists in E. destruct E as (x & Ix & Ex). apply Z.eqb_eq in Ex. assert (X : x = l \/ x = - l) by lia. destruct X as [-> | ->]; auto.
    + assert (R : In (Z.abs l) rest) by (apply filter_In; rewrite E; split; [apply Vp; exists c, l; auto|reflexivity]). apply (in_map Z.opp) in R. assert (X : - Z.abs l = l \/ - Z.abs l = - l) by lia. destruct X as [X|X]; rewrite X in R; auto.
  - apply sat_forall. intros c Hc. destruct (D3 c Hc) as (l & Ic & Im). unfold satc. apply existsb_exists. exists l. split; [exact Ic|]. destruct (D2 l Im) as [Nl _].
    set (m' := (m ++ map Z.opp rest)%list) in *. assert (Im' : In l m') by (apply in_app_iff; auto). unfold evl. destruct (Z.ltb_spec 0 l) as [P|P].
    + apply existsb_exists. exists l. split; [exact Im'|apply Z.eqb_refl].
    + apply negb_true_iff. destruct (existsb (Z.eqb (- l)) m') eqn:E; [|reflexivity]. exfalso. apply existsb_exists in E. destruct E as (x & Ix & Ex). apply Z.eqb_eq in Ex. subst x. revert ND Im' Ix. generalize m'. clear -P Nl.
      induction m' as [|y m' IH]; intros D I1 I2; [destruct I1|]. cbn in D. inversion D as [|? ? D1 D2]; subst. destruct I1 as [->|I1], I2 as [E|I2]; [lia| | |exact (IH D2 I1 I2)].
      * apply D1. replace (Z.abs l) with (Z.abs (- l)) by lia. apply in_map. exact I2.
      * subst y. apply D1. replace (Z.abs (- l)) with (Z.abs l) by lia. apply in_map. exact I1.
Qed.
