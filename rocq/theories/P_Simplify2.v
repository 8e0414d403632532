(** Proofs about simplify: the two steps of allow_bottleneck. *)
From Coq Require Import ZArith QArith List Bool Lia Permutation Lqa.
From Verif Require Import Spec_Simplify P_Simplify.
Import ListNotations.
Local Open Scope Q_scope.

Definition put (ks : list (Z * Q)) (F : Z -> Q) (c : Z) : Q :=
  match find (fun k => Z.eqb c (fst k)) ks with Some k => snd k | None => F c end.
Lemma put_other ks F c : ~ In c (map fst ks) -> put ks F c = F c.
Proof.
  unfold put. intros H. destruct (find _ ks) as [k|] eqn:E; [|reflexivity]. exfalso. apply find_some in E. destruct E as [I E]. apply Z.eqb_eq in E. subst c. apply H. apply in_map. exact I.
Qed.
Lemma put_total ks F l : (forall c, In c l -> ~ In c (map fst ks)) -> total (put ks F) l == total F l.
Proof. intros H. apply total_ext. intros c I. rewrite put_other by (apply H; exact I). reflexivity. Qed.
Lemma put_shares ks F n : (forall c, In c (fst n) \/ In c (snd n) -> ~ In c (map fst ks)) -> ashares F n -> ashares (put ks F) n.
Proof. intros H. apply ashares_ext. intros c I. rewrite put_other by (apply H; exact I). reflexivity. Qed.

Ltac unput := unfold put; cbn [find fst snd];
  repeat match goal with |- context [Z.eqb ?a ?b] => destruct (Z.eqb_spec a b); try congruence; cbn [snd] end; try reflexivity; try congruence.

(** *** Two splitters with the same two sources and one output each *)
Section Join.
  Variables (x1 x2 y1 y2 oa ob : Z) (is_ it_ : list Z) (N : list node).
  Let M : list node := ([x1; x2], [oa]) :: ([y1; y2], [ob]) :: (is_, [x1; y1]) :: (it_, [x2; y2]) :: N.
  Let M' : list node := ([x1; x2], [oa; ob]) :: (is_, [x1]) :: (it_, [x2]) :: N.
  Hypothesis S : asingle M.
  Definition xs : list Z := [x1; x2; y1; y2].
  Lemma join_distinct : x1 <> x2 /\ x1 <> y1 /\ x1 <> y2 /\ x2 <> y1 /\ x2 <> y2 /\ y1 <> y2 /\ oa <> ob /\ ~ In oa xs /\ ~ In ob xs /\
    (forall c, In c xs -> ~ In c is_ /\ ~ In c it_ /\ ~ In c (Ins N) /\ ~ In c (Outs N)) /\ asingle M'.
  Proof.
    destruct S as [A B]. cbn in A, B. 
    change (NoDup ([x1; x2; y1; y2] ++ (is_ ++ it_ ++ Ins N))) in A. change (NoDup ([oa; ob; x1; y1; x2; y2] ++ Outs N)) in B.
    destruct (nodup_parts _ _ A) as (A1 & A2 & A3). destruct (nodup_parts _ _ B) as (B1 & B2 & B3).
    assert (D1 : ~ In x1 [x2; y1; y2] /\ ~ In x2 [y1; y2] /\ ~ In y1 [y2]) by (inversion A1 as [|? ? ? A1']; inversion A1' as [|? ? ? A1'']; inversion A1''; subst; auto).
    assert (D2 : ~ In oa [ob; x1; y1; x2; y2] /\ ~ In ob [x1; y1; x2; y2]) by (inversion B1 as [|? ? ? B1']; inversion B1'; subst; auto).
    unfold xs. cbn in D1, D2 |- *. destruct D1 as (D1 & D3 & D4), D2 as (D2 & D5).
    repeat (split; [intuition congruence|]). split.
    - intros c H. assert (C : ~ In c (is_ ++ it_ ++ Ins N)) by (apply A3; cbn; tauto). rewrite !in_app_iff in C. split; [tauto|]. split; [tauto|]. split; [tauto|]. apply B3. cbn. tauto.
    - split.
      + cbn. change (NoDup ([x1; x2] ++ (is_ ++ it_ ++ Ins N))). apply nodup_join; [repeat constructor; cbn; intuition congruence|exact A2|]. intros c H. apply A3. cbn in *. tauto.
      + cbn. change (NoDup ([oa; ob; x1; x2] ++ Outs N)). apply nodup_join; [repeat constructor; cbn; intuition congruence|exact B2|]. intros c H. apply B3. cbn in *. tauto.
  Qed.
  Lemma join_forward F : aflow M F -> aflow M' (put [(x1, 2 * F x1); (x2, 2 * F x2)] F).
  Proof.
    intros H. destruct join_distinct as (E1 & E2 & E3 & E4 & E5 & E6 & E7 & E8 & E9 & X & _). unfold xs in *. cbn in E8, E9.
    destruct (H _ (or_introl eq_refl)) as [Ta _]. destruct (H _ (or_intror (or_introl eq_refl))) as [Tb _]. destruct (H _ (or_intror (or_intror (or_introl eq_refl)))) as [Ts Ss]. destruct (H _ (or_intror (or_intror (or_intror (or_introl eq_refl))))) as [Tt St]. cbn [fst snd] in *.
    pose proof (Ss x1 y1 ltac:(cbn; auto) ltac:(cbn; auto)) as F1. pose proof (St x2 y2 ltac:(cbn; auto) ltac:(cbn; auto)) as F2.
    set (G := put [(x1, 2 * F x1); (x2, 2 * F x2)] F).
    assert (G1 : G x1 = 2 * F x1) by (unfold G; try unfold ks; unput). assert (G2 : G x2 = 2 * F x2) by (unfold G; try unfold ks; unput).
    assert (Ga : G oa = F oa) by (apply put_other; cbn; intuition congruence). assert (Gb : G ob = F ob) by (apply put_other; cbn; intuition congruence).
    assert (Gi : total G is_ == total F is_) by (apply put_total; intros c Ic J; cbn in J; destruct (X c) as (K & _); [cbn; tauto|tauto]).
    assert (Gt : total G it_ == total F it_) by (apply put_total; intros c Ic J; cbn in J; destruct (X c) as (_ & K & _); [cbn; tauto|tauto]).
    unfold total in Ta, Tb, Ts, Tt. cbn in Ta, Tb, Ts, Tt. fold (total F is_) in Ts. fold (total F it_) in Tt.
    intros n [<-|[<-|[<-|I]]].
    - split; cbn [fst snd]; [unfold total; cbn; rewrite G1, G2, Ga, Gb; lra|]. intros x y [<-|[<-|[]]] [<-|[<-|[]]]; rewrite ?Ga, ?Gb; lra.
    - split; cbn [fst snd]; [rewrite Gi; unfold total; cbn; rewrite G1; fold (total F is_); lra|]. intros x y [<-|[]] [<-|[]]. reflexivity.
    - split; cbn [fst snd]; [rewrite Gt; unfold total; cbn; rewrite G2; fold (total F it_); lra|]. intros x y [<-|[]] [<-|[]]. reflexivity.
    - apply put_shares; [|apply H; right; right; right; right; exact I]. intros c J K. cbn in K. destruct (X c) as (_ & _ & K1 & K2); [cbn; tauto|]. destruct J as [J|J]; [apply K1|apply K2]; apply in_flat_map; exists n; auto.
  Qed.
  Lemma join_inner c : In c xs -> inner M c.
  Proof. unfold inner, xs. cbn. rewrite !in_app_iff. tauto. Qed.
  Lemma join_ends : ends_step M M' (fun c => c).
  Proof.
    pose proof join_distinct as (E1 & E2 & E3 & E4 & E5 & E6 & E7 & E8 & E9 & X & _). unfold xs in X, E8, E9. cbn in E8, E9.
    split; [reflexivity|]. split; [|split; [|split; [|split; [|split]]]].
    - intros c [C1 C2]. left. unfold aenters. cbn in *. rewrite !in_app_iff in *. tauto.
    - intros c [C1 C2]. left. unfold aleaves. cbn in *. rewrite !in_app_iff in *. tauto.
    - intros c [C1 C2]. unfold aabsent. cbn in *. rewrite !in_app_iff in *. tauto.
    - intros; assumption.
    - intros c [C1 C2]. unfold aleaves. assert (K : In c xs -> ~ In c (Outs N)) by (intros Hc; apply (X c Hc)). unfold xs in *. cbn in *. rewrite !in_app_iff in *. intuition (subst; tauto).
    - intros c [C1 C2]. exists c. split; [|reflexivity]. unfold aenters. assert (K : In c xs -> ~ In c is_ /\ ~ In c it_ /\ ~ In c (Ins N)) by (intros Hc; destruct (X c Hc) as (? & ? & ? & ?); auto). unfold xs in *. cbn in *. rewrite !in_app_iff in *. intuition (subst; tauto).
  Qed.
  Lemma join_weak : weak_step M M' (fun c => c).
  Proof.
    split; [reflexivity|]. split; [|split; [intros c; exact (ends_inner _ _ _ c join_ends)|intros _; apply join_distinct]]. intros F P H. exists (put [(x1, 2 * F x1); (x2, 2 * F x2)] F). split; [|split; [apply join_forward; exact H|]].
    - intros c. unfold put. cbn. destruct (Z.eqb_spec c x1); [cbn; pose proof (P x1); lra|]. destruct (Z.eqb_spec c x2); [cbn; pose proof (P x2); lra|apply P].
    - intros c I. rewrite put_other; [reflexivity|]. intros J. apply I. apply join_inner. unfold xs. cbn in *. tauto.
  Qed.
  Lemma join_strong : aproper M -> strong_step M M' (fun c => c).
  Proof.
    intros P. pose proof join_distinct as (E1 & E2 & E3 & E4 & E5 & E6 & E7 & E8 & E9 & X & _). unfold xs in X, E8, E9. cbn in E8, E9.
    split; [exact join_ends|]. split; [|split].
    - intros F H. exists (put [(x1, 2 * F x1); (x2, 2 * F x2)] F). split; [apply join_forward; exact H|]. intros c I. rewrite put_other; [reflexivity|]. intros J. apply I. apply join_inner. unfold xs. cbn in *. tauto.
    - intros F H. set (ks := [(x1, F x1 / 2); (y1, F x1 / 2); (x2, F x2 / 2); (y2, F x2 / 2)]). set (G := put ks F). exists G.
      assert (Kc : forall c, In c (map fst ks) -> In c xs) by (intros c J; unfold xs; cbn in *; tauto).
      split; [|intros c I; unfold G; rewrite put_other; [reflexivity|intros J; apply I; apply join_inner; apply Kc; exact J]].
      assert (G1 : G x1 = F x1 / 2) by (unfold G; try unfold ks; unput). assert (G2 : G y1 = F x1 / 2) by (unfold G; try unfold ks; unput). assert (G3 : G x2 = F x2 / 2) by (unfold G; try unfold ks; unput). assert (G4 : G y2 = F x2 / 2) by (unfold G; try unfold ks; unput).
      assert (Ga : G oa = F oa) by (apply put_other; cbn; intuition congruence). assert (Gb : G ob = F ob) by (apply put_other; cbn; intuition congruence).
      assert (Gi : total G is_ == total F is_) by (apply put_total; intros c Ic J; apply Kc in J; destruct (X c J) as (K & _); tauto).
      assert (Gt : total G it_ == total F it_) by (apply put_total; intros c Ic J; apply Kc in J; destruct (X c J) as (_ & K & _); tauto).
      destruct (H _ (or_introl eq_refl)) as [Tm Sm]. destruct (H _ (or_intror (or_introl eq_refl))) as [Ts _]. destruct (H _ (or_intror (or_intror (or_introl eq_refl)))) as [Tt _]. cbn [fst snd] in *.
      pose proof (Sm oa ob ltac:(cbn; auto) ltac:(cbn; auto)) as F1.
      unfold total in Tm, Ts, Tt. cbn in Tm, Ts, Tt. fold (total F is_) in Ts. fold (total F it_) in Tt.
      intros n [<-|[<-|[<-|[<-|I]]]].
      + split; cbn [fst snd]; [unfold total; cbn; rewrite G1, G3, Ga; unfold Qdiv; change (/ 2) with (1 # 2); lra|]. intros x y [<-|[]] [<-|[]]. reflexivity.
      + split; cbn [fst snd]; [unfold total; cbn; rewrite G2, G4, Gb; unfold Qdiv; change (/ 2) with (1 # 2); lra|]. intros x y [<-|[]] [<-|[]]. reflexivity.
      + split; cbn [fst snd]; [rewrite Gi; unfold total; cbn; rewrite G1, G2; fold (total F is_); unfold Qdiv; change (/ 2) with (1 # 2); lra|]. intros x y [<-|[<-|[]]] [<-|[<-|[]]]; rewrite ?G1, ?G2; reflexivity.
      + split; cbn [fst snd]; [rewrite Gt; unfold total; cbn; rewrite G3, G4; fold (total F it_); unfold Qdiv; change (/ 2) with (1 # 2); lra|]. intros x y [<-|[<-|[]]] [<-|[<-|[]]]; rewrite ?G3, ?G4; reflexivity.
      + apply put_shares; [|apply H; right; right; right; exact I]. intros c J K. apply Kc in K. destruct (X c K) as (_ & _ & K1 & K2). destruct J as [J|J]; [apply K1|apply K2]; apply in_flat_map; exists n; auto.
    - intros n [<-|[<-|[<-|I]]]; cbn; [split; discriminate| | |apply P; right; right; right; right; exact I].
      + split; [apply (P (is_, [x1; y1])); right; right; left; reflexivity|discriminate].
      + split; [apply (P (it_, [x2; y2])); right; right; right; left; reflexivity|discriminate].
  Qed.
End Join.

(** *** Two splitters with one input each that lead to the same two *)
Section Split.
  Variables (x1 x2 y1 y2 ia ib : Z) (os ot : list Z) (N : list node).
  Let M : list node := ([ia], [x1; x2]) :: ([ib], [y1; y2]) :: ([x1; y1], os) :: ([x2; y2], ot) :: N.
  Let M' : list node := ([ia; ib], [x1; x2]) :: ([x1], os) :: ([x2], ot) :: N.
  Hypothesis S : asingle M.
  Definition zs : list Z := [x1; x2; y1; y2].
  Lemma split_distinct : x1 <> x2 /\ x1 <> y1 /\ x1 <> y2 /\ x2 <> y1 /\ x2 <> y2 /\ y1 <> y2 /\ ia <> ib /\ ~ In ia zs /\ ~ In ib zs /\
    (forall c, In c zs -> ~ In c os /\ ~ In c ot /\ ~ In c (Ins N) /\ ~ In c (Outs N)) /\ asingle M'.
  Proof.
    destruct S as [A B]. cbn in A, B.
    change (NoDup ([x1; x2; y1; y2] ++ (os ++ ot ++ Outs N))) in B. change (NoDup ([ia; ib; x1; y1; x2; y2] ++ Ins N)) in A.
    destruct (nodup_parts _ _ B) as (A1 & A2 & A3). destruct (nodup_parts _ _ A) as (B1 & B2 & B3).
    assert (D1 : ~ In x1 [x2; y1; y2] /\ ~ In x2 [y1; y2] /\ ~ In y1 [y2]) by (inversion A1 as [|? ? ? A1']; inversion A1' as [|? ? ? A1'']; inversion A1''; subst; auto).
    assert (D2 : ~ In ia [ib; x1; y1; x2; y2] /\ ~ In ib [x1; y1; x2; y2]) by (inversion B1 as [|? ? ? B1']; inversion B1'; subst; auto).
    unfold zs. cbn in D1, D2 |- *. destruct D1 as (D1 & D3 & D4), D2 as (D2 & D5).
    repeat (split; [intuition congruence|]). split.
    - intros c H. assert (C : ~ In c (os ++ ot ++ Outs N)) by (apply A3; cbn; tauto). rewrite !in_app_iff in C. split; [tauto|]. split; [tauto|]. split; [|tauto]. apply B3. cbn. tauto.
    - split.
      + cbn. change (NoDup ([ia; ib; x1; x2] ++ Ins N)). apply nodup_join; [repeat constructor; cbn; intuition congruence|exact B2|]. intros c H. apply B3. cbn in *. tauto.
      + cbn. change (NoDup ([x1; x2] ++ (os ++ ot ++ Outs N))). apply nodup_join; [repeat constructor; cbn; intuition congruence|exact A2|]. intros c H. apply A3. cbn in *. tauto.
  Qed.
  Lemma split_forward F : aflow M F -> aflow M' (put [(x1, F x1 + F y1); (x2, F x2 + F y2)] F).
  Proof.
    intros H. destruct split_distinct as (E1 & E2 & E3 & E4 & E5 & E6 & E7 & E8 & E9 & X & _). unfold zs in *. cbn in E8, E9.
    destruct (H _ (or_introl eq_refl)) as [Ta Sa]. destruct (H _ (or_intror (or_introl eq_refl))) as [Tb Sb]. destruct (H _ (or_intror (or_intror (or_introl eq_refl)))) as [Ts Ss]. destruct (H _ (or_intror (or_intror (or_intror (or_introl eq_refl))))) as [Tt St]. cbn [fst snd] in *.
    pose proof (Sa x1 x2 ltac:(cbn; auto) ltac:(cbn; auto)) as F1. pose proof (Sb y1 y2 ltac:(cbn; auto) ltac:(cbn; auto)) as F2.
    set (G := put [(x1, F x1 + F y1); (x2, F x2 + F y2)] F).
    assert (G1 : G x1 = F x1 + F y1) by (unfold G; try unfold ks; unput). assert (G2 : G x2 = F x2 + F y2) by (unfold G; try unfold ks; unput).
    assert (Ga : G ia = F ia) by (apply put_other; cbn; intuition congruence). assert (Gb : G ib = F ib) by (apply put_other; cbn; intuition congruence).
    assert (Go : forall l, (l = os \/ l = ot) -> total G l == total F l).
    { intros l [-> | ->]; apply put_total; intros c Ic J; cbn in J; destruct (X c) as (K & K' & _); cbn; tauto. }
    assert (Gs : forall l, (l = os \/ l = ot) -> forall x, In x l -> G x = F x).
    { intros l [-> | ->] x Ix; apply put_other; intros J; cbn in J; destruct (X x) as (K & K' & _); cbn; tauto. }
    unfold total in Ta, Tb, Ts, Tt. cbn in Ta, Tb, Ts, Tt. fold (total F os) in Ts. fold (total F ot) in Tt.
    intros n [<-|[<-|[<-|I]]].
    - split; cbn [fst snd]; [unfold total; cbn; rewrite G1, G2, Ga, Gb; lra|]. intros x y [<-|[<-|[]]] [<-|[<-|[]]]; rewrite ?G1, ?G2; lra.
    - split; cbn [fst snd]; [rewrite (Go os (or_introl eq_refl)); unfold total at 1; cbn; rewrite G1; lra|]. intros x y Hx Hy. rewrite !(Gs os (or_introl eq_refl)) by assumption. apply Ss; assumption.
    - split; cbn [fst snd]; [rewrite (Go ot (or_intror eq_refl)); unfold total at 1; cbn; rewrite G2; lra|]. intros x y Hx Hy. rewrite !(Gs ot (or_intror eq_refl)) by assumption. apply St; assumption.
    - apply put_shares; [|apply H; right; right; right; right; exact I]. intros c J K. cbn in K. destruct (X c) as (_ & _ & K1 & K2); [cbn; tauto|]. destruct J as [J|J]; [apply K1|apply K2]; apply in_flat_map; exists n; auto.
  Qed.
  Lemma split_inner c : In c zs -> inner M c.
  Proof. unfold inner, zs. cbn. rewrite !in_app_iff. tauto. Qed.
  Lemma split_ends : ends_step M M' (fun c => c).
  Proof.
    pose proof split_distinct as (E1 & E2 & E3 & E4 & E5 & E6 & E7 & E8 & E9 & X & _). unfold zs in X, E8, E9. cbn in E8, E9.
    split; [reflexivity|]. split; [|split; [|split; [|split; [|split]]]].
    - intros c [C1 C2]. left. unfold aenters. cbn in *. rewrite !in_app_iff in *. tauto.
    - intros c [C1 C2]. left. unfold aleaves. cbn in *. rewrite !in_app_iff in *. tauto.
    - intros c [C1 C2]. unfold aabsent. cbn in *. rewrite !in_app_iff in *. tauto.
    - intros; assumption.
    - intros c [C1 C2]. unfold aleaves. assert (K : In c zs -> ~ In c os /\ ~ In c ot /\ ~ In c (Outs N)) by (intros Hc; destruct (X c Hc) as (? & ? & ? & ?); auto). unfold zs in *. cbn in *. rewrite !in_app_iff in *. intuition (subst; tauto).
    - intros c [C1 C2]. exists c. split; [|reflexivity]. unfold aenters. assert (K : In c zs -> ~ In c (Ins N)) by (intros Hc; destruct (X c Hc) as (? & ? & ? & ?); auto). assert (Ka : c = ia \/ c = ib -> ~ In c zs) by (unfold zs; cbn; intros [->| ->]; assumption). unfold zs in *. cbn in *. rewrite !in_app_iff in *. intuition (subst; tauto).
  Qed.
  Lemma split_weak : weak_step M M' (fun c => c).
  Proof.
    split; [reflexivity|]. split; [|split; [intros c; exact (ends_inner _ _ _ c split_ends)|intros _; apply split_distinct]]. intros F P H. exists (put [(x1, F x1 + F y1); (x2, F x2 + F y2)] F). split; [|split; [apply split_forward; exact H|]].
    - intros c. unfold put. cbn. destruct (Z.eqb_spec c x1); [cbn; pose proof (P x1); pose proof (P y1); lra|]. destruct (Z.eqb_spec c x2); [cbn; pose proof (P x2); pose proof (P y2); lra|apply P].
    - intros c I. rewrite put_other; [reflexivity|]. intros J. apply I. apply split_inner. unfold zs. cbn in *. tauto.
  Qed.
  Lemma split_strong : aproper M -> strong_step M M' (fun c => c).
  Proof.
    intros P. pose proof split_distinct as (E1 & E2 & E3 & E4 & E5 & E6 & E7 & E8 & E9 & X & _). unfold zs in X, E8, E9. cbn in E8, E9.
    split; [exact split_ends|]. split; [|split].
    - intros F H. exists (put [(x1, F x1 + F y1); (x2, F x2 + F y2)] F). split; [apply split_forward; exact H|]. intros c I. rewrite put_other; [reflexivity|]. intros J. apply I. apply split_inner. unfold zs. cbn in *. tauto.
    - intros F H. set (ks := [(x1, F ia / 2); (x2, F ia / 2); (y1, F ib / 2); (y2, F ib / 2)]). set (G := put ks F). exists G.
      assert (Kc : forall c, In c (map fst ks) -> In c zs) by (intros c J; unfold zs; cbn in *; tauto).
      split; [|intros c I; unfold G; rewrite put_other; [reflexivity|intros J; apply I; apply split_inner; apply Kc; exact J]].
      assert (G1 : G x1 = F ia / 2) by (unfold G; try unfold ks; unput). assert (G2 : G x2 = F ia / 2) by (unfold G; try unfold ks; unput). assert (G3 : G y1 = F ib / 2) by (unfold G; try unfold ks; unput). assert (G4 : G y2 = F ib / 2) by (unfold G; try unfold ks; unput).
      assert (Ga : G ia = F ia) by (apply put_other; cbn; intuition congruence). assert (Gb : G ib = F ib) by (apply put_other; cbn; intuition congruence).
      assert (Go : forall l, (l = os \/ l = ot) -> total G l == total F l).
      { intros l [-> | ->]; apply put_total; intros c Ic J; apply Kc in J; destruct (X c J) as (K & K' & _); tauto. }
      assert (Gs : forall l, (l = os \/ l = ot) -> forall x, In x l -> G x = F x).
      { intros l [-> | ->] x Ix; apply put_other; intros J; apply Kc in J; destruct (X x J) as (K & K' & _); tauto. }
      destruct (H _ (or_introl eq_refl)) as [Tm Sm]. destruct (H _ (or_intror (or_introl eq_refl))) as [Ts Ss]. destruct (H _ (or_intror (or_intror (or_introl eq_refl)))) as [Tt St]. cbn [fst snd] in *.
      pose proof (Sm x1 x2 ltac:(cbn; auto) ltac:(cbn; auto)) as F1.
      unfold total in Tm, Ts, Tt. cbn in Tm, Ts, Tt. fold (total F os) in Ts. fold (total F ot) in Tt.
      intros n [<-|[<-|[<-|[<-|I]]]].
      + split; cbn [fst snd]; [unfold total; cbn; rewrite G1, G2, Ga; unfold Qdiv; change (/ 2) with (1 # 2); lra|]. intros x y [<-|[<-|[]]] [<-|[<-|[]]]; rewrite ?G1, ?G2; reflexivity.
      + split; cbn [fst snd]; [unfold total; cbn; rewrite G3, G4, Gb; unfold Qdiv; change (/ 2) with (1 # 2); lra|]. intros x y [<-|[<-|[]]] [<-|[<-|[]]]; rewrite ?G3, ?G4; reflexivity.
      + split; cbn [fst snd]; [rewrite (Go os (or_introl eq_refl)); unfold total at 1; cbn; rewrite G1, G3; unfold Qdiv; change (/ 2) with (1 # 2); lra|]. intros x y Hx Hy. rewrite !(Gs os (or_introl eq_refl)) by assumption. apply Ss; assumption.
      + split; cbn [fst snd]; [rewrite (Go ot (or_intror eq_refl)); unfold total at 1; cbn; rewrite G2, G4; unfold Qdiv; change (/ 2) with (1 # 2); lra|]. intros x y Hx Hy. rewrite !(Gs ot (or_intror eq_refl)) by assumption. apply St; assumption.
      + apply put_shares; [|apply H; right; right; right; exact I]. intros c J K. apply Kc in K. destruct (X c K) as (_ & _ & K1 & K2). destruct J as [J|J]; [apply K1|apply K2]; apply in_flat_map; exists n; auto.
    - intros n [<-|[<-|[<-|I]]]; cbn; [split; discriminate| | |apply P; right; right; right; right; exact I].
      + split; [discriminate|apply (P ([x1; y1], os)); right; right; left; reflexivity].
      + split; [discriminate|apply (P ([x2; y2], ot)); right; right; right; left; reflexivity].
  Qed.
End Split.
