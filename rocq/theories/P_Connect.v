(** In the solutions for a network none of whose belts is missing every side of
    every tile is in use. *)
From Coq Require Import String ZArith List Bool Lia.
From Verif Require Import P_Network P_Network2 P_Benes P_Nonneg P_Similar T_Network.
From Verif Require Import Spec_Cnf Spec_Tile Spec_Layout Spec_Pattern Spec_Main M_Json M_Tile M_Util M_Card M_Network Spec_Network M_Template M_Grid M_Oracle M_Balancer M_Optimise
  P_Cnf P_Util P_Card P_Tile P_Layout T_Tile P_List P_Template P_Walk P_Grid P_GridSound P_GridComplete P_Transport T_Grid T_Enumerate P_GridOk P_Gen P_Balancer
  Spec_Balancer P_Trace P_Realise P_Ends T_Balancer P_Lossless T_Lossless.
Import ListNotations.
Open Scope Z_scope.

Section Connect.
  Variable g : grid.
  Hypothesis W : wf_grid g.
  Hypothesis CX : wrap_x (geo g) = false.
  Hypothesis CY : wrap_y (geo g) = false.
  Variable net : counter.
  Variables ic n oc m : Z.
  Variable a : assignment.
  Hypothesis B : balancer_rules g net ic n oc m a.
  Hypothesis So : solves g (EBool true) a.
  Variable T : layout.
  Hypothesis R : reads g a T.
  Hypothesis Cm : complete (elements net).
  Notation A := (garea g).
  Notation V p := (view_of a (tile_at g p)).
  Let Sh := P_Realise.Sh g W a So T R.

  Lemma both_halves p d : inside A p -> T p = Splitter d true -> exists q, neighbour A p (anticlockwise d) = Some q /\
    vi (V p) d = true /\ vi (V q) d = true /\ vo (V p) d = true /\ vo (V q) d = true.
  Proof.
    intros Hp E. destruct (hs_all g W net ic n oc m a B So T R p d Hp E) as [j Hj].
    destruct (hs_nth g W net ic n oc m a B So T R j _ Hj) as (nd & Hnd & _ & _ & e & Te & _ & Nb & p10 & p01 & p11 & E10 & E01 & E11 & S1 & S2).
    cbn [fst snd] in *. rewrite E in Te. injection Te as <-. exists p01. split; [exact E01|].
    destruct (Cm nd (nth_error_In _ _ Hnd)) as (K1 & K2 & K3 & K4). destruct nd as [[[x|] [y|]] [[z|] [u|]]]; cbn [fst snd] in *; try congruence.
    cbn [side_rule] in S1, S2. tauto.
  Qed.
  Lemma sides_used p d : inside A p -> (vi (V p) d = true <-> takes (T p) d) /\ (vo (V p) d = true <-> pushes (T p) d).
  Proof.
    intros Hp. pose proof (Sh p Hp) as S. destruct (T p) as [| |i o|e b|e h|e k|x y] eqn:E.
    - destruct S as ((_ & I & O) & _). rewrite I, O. cbn. intuition discriminate.
    - destruct S as (S & _). contradiction.
    - destruct S as ((_ & I & O & _) & _). rewrite I, O. cbn. intuition congruence.
    - destruct b; destruct S as ((_ & I & O) & _); cbn [takes pushes]; split; rewrite ?I, ?O; intuition congruence.
    - assert (K : vi (V p) e = true /\ vo (V p) e = true).
      { destruct h.
        - destruct (both_halves p e Hp E) as (q & _ & H1 & _ & H2 & _). auto.
        - destruct (P_Realise.VL g W a So T R) as (_ & Pair & _). destruct (Pair p e false Hp E) as (q & Nq & Tq). cbn [mate_side negb] in Nq, Tq.
          assert (Iq : inside A q) by (eapply ahead_inside; exact Nq). destruct (both_halves q e Iq Tq) as (p' & Np & _ & H1 & _ & H2).
          pose proof (neighbour_back _ _ _ _ (WA g W) Hp Nq) as Bk. replace (opposite (clockwise e)) with (anticlockwise e) in Bk by (destruct e; reflexivity).
          rewrite Bk in Np. apply Some_inj in Np. subst p'. auto. }
      destruct S as ((_ & _ & S1 & S2 & _) & _). destruct K as [K1 K2]. cbn [takes pushes]. split; split; intros H; subst; auto.
      + symmetry. apply S1. exact H.
      + symmetry. apply S2. exact H.
    - destruct S as (S & _). contradiction.
    - destruct S as (S & _). contradiction.
  Qed.
  Lemma side_gets p d : inside A p -> (vi (V p) d = true <-> gets A T p d).
  Proof.
    intros Hp. rewrite (proj1 (sides_used p d Hp)). unfold gets. split; [|tauto]. intros H. split; [exact H|]. intros q Hq.
    assert (Iq : inside A q) by (eapply ahead_inside; exact Hq). apply (proj2 (sides_used q d Iq)). pose proof (neighbour_back _ _ _ _ (WA g W) Hp Hq) as Bk. rewrite opposite_opposite in Bk.
    rewrite (P_Realise.link g W a So q d p Iq Bk). apply (proj1 (sides_used p d Hp)). exact H.
  Qed.
  Lemma side_gives p d : inside A p -> (vo (V p) d = true <-> gives A T p d).
  Proof.
    intros Hp. rewrite (proj2 (sides_used p d Hp)). unfold gives. split; [|tauto]. intros H. split; [exact H|]. intros q Hq.
    assert (Iq : inside A q) by (eapply ahead_inside; exact Hq). apply (proj1 (sides_used q d Iq)).
    rewrite <- (P_Realise.link g W a So p d q Hp Hq). apply (proj2 (sides_used p d Hp)). exact H.
  Qed.
End Connect.
