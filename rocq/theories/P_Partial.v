(** What --partial leaves of the layouts of any of the programs. *)
From Coq Require Import String ZArith List Bool Lia.
From Verif Require Import P_Network P_Network2 P_Benes P_Nonneg P_Similar T_Network.
From Verif Require Import Spec_Cnf Spec_Tile Spec_Layout Spec_Pattern Spec_Main M_Json M_Tile M_Util M_Card M_Network Spec_Network M_Template M_Grid M_Oracle M_Balancer M_Optimise M_Solve M_Main M_Partial
  P_Cnf P_Util P_Card P_Tile P_Layout P_List P_Template P_Walk P_Grid P_GridSound P_GridComplete T_Grid P_GridOk P_Gen P_Main P_MainTotal P_Pow2Exact.
Import ListNotations.
Open Scope Z_scope.

Definition kept (partial : option (list (list tile))) (T : layout) : Prop := match partial with Some G => extends T G | None => True end.

Lemma partial_layouts partial r g cs top T : with_partial partial r = Some (g, cs, top) -> wf_grid g ->
  (forall cs0, r = Some (g, cs0, top) -> forall a, sat a cs0 = true -> solves_init g a) ->
  (exists a, sat a cs = true /\ reads g a T) <-> (exists cs0 a, r = Some (g, cs0, top) /\ sat a cs0 = true /\ reads g a T) /\ kept partial T.
Proof.
  intros H W GI. destruct (with_partial_split _ _ _ _ _ H) as (cs0 & Er & Sm & Sp). specialize (GI cs0 Er). split.
  - intros (a & Sa & R). apply Sp in Sa. destruct Sa as [S0 S1]. split; [exists cs0, a; auto|]. unfold kept. destruct partial as [G|]; [|exact Logic.I].
    destruct (S1 G eq_refl) as (c & Ec & Sc). apply (partial_sat g W a (GI a S0) T R G c Ec). exact Sc.
  - intros ((cs1 & a & Er1 & S0 & R) & K). assert (cs1 = cs0) by (rewrite Er in Er1; apply Some_inj in Er1; congruence). subst cs1.
    exists a. split; [|exact R]. apply Sp. split; [exact S0|]. intros G ->. destruct (Sm G eq_refl) as (c & Ec). exists c. split; [exact Ec|]. apply (partial_sat g W a (GI a S0) T R G c Ec). exact K.
Qed.

Lemma with_partial_some partial g cs top : wf_grid g ->
  (with_partial partial (Some (g, cs, top)) <> None <-> match partial with Some G => placeable (width (geo g)) (height (geo g)) G | None => True end).
Proof.
  intros W. unfold with_partial. cbn [obind]. destruct partial as [G|]; [|split; [auto|discriminate]].
  rewrite <- (partial_some g G W). destruct (set_nonempty_tiles g G); [split; intros; discriminate|]. cbn [obind]. tauto.
Qed.
Lemma with_partial_none partial : with_partial partial None = None.
Proof. reflexivity. Qed.
