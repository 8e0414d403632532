(** The colours of Benes networks are not negative. *)
From Coq Require Import ZArith QArith List Bool Lia Permutation.
From Verif Require Import P_Network P_Benes P_Dict.
From Verif Require Import M_Json M_Dict M_Network Spec_Network.
Import ListNotations.
Open Scope Z_scope.

Definition nonneg (net : network) : Prop := forall c, In (Some c) (slots net) -> 0 <= c.
Definition nonneg_values (d : list (Z * Z)) : Prop := forall c v, In (c, v) d -> 0 <= v.

Lemma nonneg_dset d k v : nonneg_values d -> 0 <= v -> nonneg_values (dset Z.eqb k v d).
Proof.
  intros H Hv. induction d as [|[k' v'] d IH]; cbn [dset].
  - intros c w [[= <- <-]|[]]. exact Hv.
  - destruct (k =? k').
    + intros c w [[= <- <-]|Hin]; [exact Hv|]. eapply H. right. exact Hin.
    + intros c w [[= <- <-]|Hin]; [eapply H; left; reflexivity|]. eapply IH; [|exact Hin]. intros c' w' H'. eapply H. right. exact H'.
Qed.
Lemma nonneg_numbers cs : forall i a b, 0 <= i -> nonneg_values a -> nonneg_values b ->
  let '(j, a', b') := number_inner i cs a b in 0 <= j /\ nonneg_values a' /\ nonneg_values b'.
Proof.
  induction cs as [|c cs IH]; intros i a b Hi Ha Hb; cbn [number_inner]; [auto|]. apply IH; [lia| |]; apply nonneg_dset; auto; lia.
Qed.
Lemma nonneg_remap net d : nonneg net -> nonneg_values d -> nonneg (remap_colours net d).
Proof.
  intros H Hd c Hc. apply slots_in in Hc. destruct Hc as (nd' & Hin & Hc). unfold remap_colours in Hin. apply in_map_iff in Hin. destruct Hin as (nd & <- & Hin).
  assert (X : forall x, In x (slots net) -> Some c = map_colour d x -> 0 <= c).
  { intros [y|] Hy; cbn [map_colour]; [|discriminate]. destruct (dget Z.eqb y d) as [v|] eqn:E; intros [= ->].
    - apply (dget_in Z.eqb Z.eqb_spec) in E. eapply Hd; eauto.
    - apply H. exact Hy. }
  unfold map_splitter in Hc. cbn [fst snd] in Hc. destruct Hc as [Hc|[Hc|[Hc|Hc]]]; (eapply X; [|exact Hc]); apply slots_in; exists nd; auto.
Qed.
Lemma nonneg_app l k : nonneg l -> nonneg k -> nonneg (l ++ k).
Proof.
  intros H1 H2 c Hc. apply slots_in in Hc. destruct Hc as (nd & Hin & Hc). apply in_app_iff in Hin.
  destruct Hin as [Hin|Hin]; [apply H1|apply H2]; apply slots_in; exists nd; auto.
Qed.
Lemma nonneg_replace i o net : 0 <= o -> nonneg net -> nonneg (replace_input i o net).
Proof.
  intros Ho. assert (X : forall nd l, nonneg (nd :: l) <-> (forall c, Some c = fst (fst nd) \/ Some c = snd (fst nd) \/ Some c = fst (snd nd) \/ Some c = snd (snd nd) -> 0 <= c) /\ nonneg l).
  { intros nd l. unfold nonneg. split.
    - intros H. split; intros c Hc; apply H; apply slots_in; [exists nd; cbn; auto|]. apply slots_in in Hc. destruct Hc as (x & H1 & H2). exists x. cbn; auto.
    - intros [H1 H2] c Hc. apply slots_in in Hc. destruct Hc as (x & [<-|Hx] & H3); [apply H1; exact H3|]. apply H2. apply slots_in. eauto. }
  induction net as [|[[x y] [u v]] net IH]; intros H; cbn [replace_input]; [exact H|].
  apply X in H. cbn [fst snd] in H. destruct H as [H1 H2].
  destruct (colour_eqb x (Some i)); [|destruct (colour_eqb y (Some i))]; apply X; cbn [fst snd]; (split; [|auto]).
  - intros c [Hc|Hc]; [injection Hc as ->; exact Ho|]. apply H1. tauto.
  - intros c [Hc|[Hc|Hc]]; [injection Hc as ->; exact Ho| |]; apply H1; tauto.
  - exact H1.
Qed.
Lemma ends_in net ic n oc m : get_input_output_colours net = Some ((ic, n), (oc, m)) -> In (Some oc) (slots net) /\ In (Some ic) (slots net).
Proof.
  intros E. apply ends_spec in E. destruct E as ((H1 & H2) & H3 & H4 & _).
  assert (N : forall c l, 0 <= occurs c l) by (intros; apply occurs_nonneg).
  unfold consumed, produced in *. split.
  - match goal with H : occurs oc ?l - occurs oc ?k = m |- _ => assert (Hp : 0 < occurs oc l) by (pose proof (N oc k); lia) end.
    apply occurs_in in Hp. unfold slots. apply in_or_app. right. exact Hp.
  - match goal with H : occurs ic ?l - occurs ic ?k = n |- _ => assert (Hp : 0 < occurs ic l) by (pose proof (N ic k); lia) end.
    apply occurs_in in Hp. unfold slots. apply in_or_app. left. exact Hp.
Qed.
Lemma benes_nonneg order : forall fuel size net, create_benes order fuel size = Some net -> nonneg net.
Proof.
  induction fuel as [|f IH]; intros size net; cbn [create_benes]; [discriminate|].
  destruct (size <? 2); [discriminate|]. destruct (size =? 2).
  { intros [= <-] c Hc. cbn in Hc. repeat (destruct Hc as [Hc|Hc]; [injection Hc as <-; lia|]). destruct Hc. }
  destruct (size mod 2 =? 1).
  - destruct (create_benes order f (size + 1)) as [inner|] eqn:E; [|discriminate]. cbn [obind].
    destruct (get_input_output_colours inner) as [[[ic n] [oc m]]|] eqn:Ee; [|discriminate]. cbn [obind]. intros [= <-].
    pose proof (IH _ _ E) as Hn. apply nonneg_replace; [|exact Hn]. apply Hn. apply (ends_in _ _ _ _ _ Ee).
  - destruct (create_benes order f (size / 2)) as [inner|] eqn:E; [|discriminate]. cbn [obind]. unfold double_network.
    destruct (get_input_output_colours inner) as [[[ic n] [oc m]]|] eqn:Ee; [|discriminate]. cbn [obind]. pose proof (IH _ _ E) as Hn.
    match goal with |- context [number_inner 3 ?l ?a ?b] => pose proof (nonneg_numbers l 3 a b) as Nn; destruct (number_inner 3 l a b) as [[j a'] b'] end.
    destruct Nn as (Hj & Ha & Hb); [lia| | |].
    + intros c v [[= <- <-]|[]]. lia.
    + intros c v [[= <- <-]|[]]. lia.
    + intros [= <-]. apply nonneg_app; [|apply nonneg_app; apply nonneg_remap; auto; apply nonneg_dset; auto].
      intros c Hc. apply slots_in in Hc. destruct Hc as (nd & Hin & Hc). apply repeat_spec in Hin. subst nd. cbn in Hc.
      destruct Hc as [Hc|[Hc|[Hc|Hc]]]; injection Hc as ->; lia.
Qed.
