(** Numbers on the cells of a layout that are kept along belts and obeyed by
    splitters are a steady flow. *)
From Coq Require Import String ZArith QArith List Bool Lia.
From Verif Require Import Spec_Cnf Spec_Tile Spec_Layout M_Json M_Tile M_Util M_Card M_Network Spec_Network M_Template M_Grid
  Spec_Balancer Spec_Flow P_Cnf P_Layout P_Walk P_Grid P_GridSound T_Grid P_Trace P_Uniq.
Import ListNotations.
Open Scope Z_scope.

Section Witness.
  Variable g : grid.
  Hypothesis W : wf_grid g.
  Variable a : assignment.
  Hypothesis S : solves_init g a.
  Hypothesis Ix : sat a (prevent_intersection g) = true.
  Variable T : layout.
  Hypothesis R : reads g a T.
  Variable L : Z.
  Notation A := (garea g).
  Notation V p := (view_of a (tile_at g p)).
  Hypothesis VL : valid_layout A T L.
  Let HA : wf_area A := WA g W.
  Let G : grid_rules g a := proj1 (solves_init_rules g a W) S.
  Let LK : forall p d, inside A p -> link_rule g a p d := proj1 (intersection_sat g W a) Ix.

  Lemma seen p : inside A p -> shows (V p) (T p).
  Proof. apply (T_shows g a T R G). Qed.
  Lemma linked p d q : inside A p -> neighbour A p d = Some q -> vo (V p) d = vi (V q) d.
  Proof. apply (link g a LK). Qed.
  Lemma splitter_seen p d h : inside A p -> T p = Splitter d h ->
    vs (V p) = true /\ vh (V p) = h /\ (forall e, vi (V p) e = true -> e = d) /\ (forall e, vo (V p) e = true -> e = d) /\
    (vi (V p) d = true \/ vo (V p) d = true).
  Proof.
    intros Hp Tp. pose proof (seen p Hp) as Sh. rewrite Tp in Sh. destruct Sh as [(H1 & H2 & H3 & H4 & H5) _]. auto.
  Qed.

  (** Splitters do not lie at the border, and no unused output of a splitter
      faces an unused input of another one. *)
  Hypothesis BR : forall p d h, inside A p -> T p = Splitter d h -> neighbour A p d <> None /\ neighbour A p (opposite d) <> None.
  Definition no_touching : Prop := forall p d h q h', inside A p -> T p = Splitter d h -> neighbour A p d = Some q -> T q = Splitter d h' -> vo (V p) d = true.
  Hypothesis NT : no_touching.

  Lemma exit_vo p d h q : inside A p -> T p = Splitter d h -> neighbour A p d = Some q -> takes (T q) d -> vo (V p) d = true.
  Proof.
    intros Hp Tp En Tk. assert (Hq : inside A q) by (eapply ahead_inside; exact En).
    assert (X : is_splitter_tile (T q) \/ ~ is_splitter_tile (T q)) by (destruct (T q); cbn; tauto). destruct X as [X|X].
    - destruct (T q) as [| | | |e h'| |] eqn:Tq; try contradiction. cbn in Tk. subst e. eapply NT; eauto.
    - rewrite (linked p d q Hp En). apply (shows_takes_inv (V q) (T q)); auto. apply seen. exact Hq.
  Qed.
  Lemma exit_used_vo p d h : inside A p -> T p = Splitter d h -> (exit_used A T L p <-> vo (V p) d = true).
  Proof.
    intros Hp Tp. split.
    - intros (f & q & r & (_ & d' & h' & Tp' & En & Tk) & _). rewrite Tp in Tp'. injection Tp' as <- <-. eapply exit_vo; eauto.
    - intros Vo. destruct (neighbour A p d) as [q|] eqn:En; [|destruct (BR p d h Hp Tp); congruence].
      assert (Hq : inside A q) by (eapply ahead_inside; exact En).
      assert (B : begins A T (Exit p) q).
      { split; [exact Hp|]. exists d, h. split; [exact Tp|]. split; [exact En|]. apply (shows_takes (V q)); [apply seen; exact Hq|]. rewrite <- (linked p d q Hp En). exact Vo. }
      destruct (trace_forward A T L HA VL _ _ B) as (f & r & C & Rf). exists f, q, r. auto.
  Qed.
  Lemma entrance_used_vi p d h : inside A p -> T p = Splitter d h -> (entrance_used A T L p <-> vi (V p) d = true).
  Proof.
    intros Hp Tp. assert (Rp : reaches A T (Entrance p) p) by (split; [reflexivity|]; split; [exact Hp|]; rewrite Tp; exact Logic.I). split.
    - intros (s & q & r & B & C & (-> & _)). apply (carried_inv A T L) in C. destruct C as [->|(y & Hs & _)].
      + destruct s as [e|e].
        * destruct B as (-> & _ & d' & Tk & Eb). rewrite Tp in Tk. cbn in Tk. subst d'. destruct (BR e d h Hp Tp). congruence.
        * destruct B as (He & d' & h' & Te & Eb & Tk). rewrite Tp in Tk. cbn in Tk. subst d'. rewrite <- (linked e d p He Eb). eapply exit_vo; eauto. rewrite Tp. reflexivity.
      + destruct Hs as [(Hy & N & d' & Pd & E)|(Hy & d' & Ty & Tq & _)]; [|congruence].
        pose proof (received A T L VL _ _ _ Hy Pd N E) as Tk. rewrite Tp in Tk. cbn in Tk. subst d'. rewrite <- (linked y d p Hy E).
        apply (shows_pushes_inv (V y) (T y)); auto. apply seen. exact Hy.
    - intros Vi. destruct (trace_back A T L HA VL p) as (s & q & B & C).
      + split; [exact Hp|]. right. exists d. split; [rewrite Tp; reflexivity|]. destruct (neighbour A p (opposite d)) as [b|] eqn:Eb; [|exact Logic.I].
        assert (Hb : inside A b) by (eapply ahead_inside; exact Eb). pose proof (neighbour_back _ _ _ _ HA Hp Eb) as Ef. rewrite opposite_opposite in Ef.
        apply (shows_pushes (V b)); [apply seen; exact Hb|]. rewrite (linked b d p Hb Ef). exact Vi.
      + apply (reaches_last A T L (Entrance p) p Rp).
      + exists s, q, p. auto.
  Qed.

  Variable F : pos -> Z.
  Hypothesis FC : forall p q, carried A T L p q -> F p = F q.
  Definition into_of (s : start) : Z :=
    match s with
    | Enter p => F p
    | Exit p => match T p with
        | Splitter d _ => if vo (V p) d then match neighbour A p d with Some q => F q | None => 0 end else 0
        | _ => 0 end
    end.
  Definition from_of (f : finish) : Z :=
    match f with
    | Leave p => F p
    | Entrance p => match T p with Splitter d _ => if vi (V p) d then F p else 0 | _ => 0 end
    end.
  Hypothesis SP : forall s, is_splitter_at A T s ->
    into_of (Exit (fst s)) + into_of (Exit (snd s)) = from_of (Entrance (fst s)) + from_of (Entrance (snd s)) /\
    forall d, T (fst s) = Splitter d true -> vo (V (fst s)) d = true -> vo (V (snd s)) d = true ->
      into_of (Exit (fst s)) = into_of (Exit (snd s)).

  Theorem flow_witness : steady_flow A T L (fun s => inject_Z (into_of s)) (fun f => inject_Z (from_of f)).
  Proof.
    split; [|split].
    - intros s f J. assert (X : from_of f = into_of s); [|rewrite X; reflexivity].
      pose proof J as (q & r & B & C & Rf).
      assert (X1 : into_of s = F q).
      { destruct s as [p|p]; cbn [into_of]; [destruct B as (-> & _); reflexivity|].
        destruct B as (Hp & d & h & Tp & En & Tk). rewrite Tp, En. rewrite (exit_vo p d h q Hp Tp En Tk). reflexivity. }
      assert (X2 : from_of f = F r).
      { destruct f as [p|p]; cbn [from_of]; [destruct Rf as (-> & _); reflexivity|].
        destruct Rf as (-> & Hp & Sp). destruct (T p) as [| | | |d h| |] eqn:Tp; try contradiction.
        assert (U : entrance_used A T L p) by (exists s; exact J). apply (entrance_used_vi p d h Hp Tp) in U. rewrite U. reflexivity. }
      rewrite X1, X2. symmetry. apply FC. exact C.
    - intros p Hp Sp. destruct (T p) as [| | | |d h| |] eqn:Tp; try contradiction. cbn [into_of from_of]. rewrite Tp. split; intros N.
      + rewrite (exit_used_vo p d h Hp Tp) in N. destruct (vo (V p) d); [contradiction N; reflexivity|reflexivity].
      + rewrite (entrance_used_vi p d h Hp Tp) in N. destruct (vi (V p) d); [contradiction N; reflexivity|reflexivity].
    - intros s Hs. destruct (SP s Hs) as [Q1 Q2]. pose proof Hs as (P1 & P2 & d & T1 & T2 & _). split.
      + rewrite <- !inject_Z_plus, Q1. reflexivity.
      + intros U1 U2. apply (exit_used_vo _ d true P1 T1) in U1. apply (exit_used_vo _ d false P2 T2) in U2. rewrite (Q2 d T1 U1 U2). reflexivity.
  Qed.
End Witness.
