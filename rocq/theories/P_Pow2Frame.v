(** Between the two columns of splitters the layouts of
    belt_balancer_net_free_power_of_2.py are balanced. *)
From Coq Require Import String ZArith QArith List Bool Lia Lqa Permutation.
From Verif Require Import Spec_Cnf Spec_Tile Spec_Layout M_Json M_Tile M_Util M_Card M_Network Spec_Network M_Template M_Grid M_Oracle M_Balancer M_Optimise M_NetFree M_Pow2
  Spec_Balancer Spec_Flow Spec_Pow2 P_Cnf P_Util P_Card P_Tile P_Layout P_List P_Template P_Walk P_Grid P_GridSound P_GridComplete P_Transport T_Grid P_GridOk P_Gen P_Trace P_Uniq P_FlowWitness
  P_NetEnds P_NetShape P_Balancer P_NetFree P_Pow2 P_Pow2Flow P_Frame.
From Verif Require P_Flow.
Import ListNotations.
Open Scope Z_scope.

Lemma qsum_ext {X} (f k : X -> Q) l : (forall x, In x l -> (f x == k x)%Q) -> (qsum (map f l) == qsum (map k l))%Q.
Proof.
  induction l as [|x l IH]; intros H; [reflexivity|]. cbn [map]. rewrite !qsum_cons, IH by (intros; apply H; right; assumption). rewrite (H x) by (left; reflexivity). reflexivity.
Qed.
Lemma qsum_add {X} (f k : X -> Q) l : (qsum (map (fun x => f x + k x) l) == qsum (map f l) + qsum (map k l))%Q.
Proof. induction l as [|x l IH]; [reflexivity|]. cbn [map]. rewrite !qsum_cons, IH. ring. Qed.
(** Rows counted in pairs. *)
Lemma qsum_pairs (e : Z -> Q) n : (qsum (map (fun y => e (Z.of_nat y)) (seq 0 (2 * n))) == qsum (map (fun c => e (2 * Z.of_nat c)%Z + e (2 * Z.of_nat c + 1)%Z) (seq 0 n)))%Q.
Proof.
  induction n as [|n IH]; [reflexivity|]. replace (2 * S n)%nat with (S (S (2 * n))) by lia. rewrite !seq_S, !map_app, !qsum_app, IH. cbn [map plus]. rewrite !qsum_cons. change (qsum []) with 0%Q.
  replace (2 * Z.of_nat n)%Z with (Z.of_nat (2 * n)) by lia. replace (Z.of_nat (2 * n) + 1)%Z with (Z.of_nat (S (2 * n))) by lia. ring.
Qed.

Section Framed.
  Variables (w h : Z) (ul : option Z) (a : assignment).
  Hypothesis PF : pow2_facts w h ul a.
  Variable T : layout.
  Notation g := (pow2_grid w h ul).
  Hypothesis R : reads g a T.
  Notation k := (levels h).
  Notation A := (garea g).
  Notation B := {| aw := w + 4; ah := h; wrapx := false; wrapy := false |}.
  Notation F := (framed w T).
  Notation ML := (max_hidden g).
  Notation bits := (colour_bits g).

  Lemma fr_w : 0 < w.
  Proof. exact (pf_w _ _ _ _ PF). Qed.
  Lemma fr_h : 0 < h.
  Proof. exact (proj1 (p2_h w h ul a PF T R)). Qed.
  Lemma fr_he : h mod 2 = 0.
  Proof. exact (proj2 (p2_h w h ul a PF T R)). Qed.
  Lemma fr_in p : begins A T (Enter p) p -> fst p = 0.
  Proof. intros Bp. apply (proj2 (p2_inlets w h ul a PF T R)) in Bp. apply rows_in in Bp; [apply Bp|]. pose proof fr_h. lia. Qed.
  Lemma fr_out p : reaches A T (Leave p) p -> fst p = w - 1.
  Proof. intros Bp. apply (proj2 (p2_outlets w h ul a PF T R)) in Bp. apply rows_in in Bp; [apply Bp|]. pose proof fr_h. lia. Qed.
  Lemma fr_valid : valid_layout B F ML.
  Proof. exact (framed_valid w h T ML fr_w fr_he (p2_left w h ul a PF T R) (p2_right w h ul a PF T R) (p2_valid w h ul a PF T R)). Qed.

  Theorem fr_flow into from : steady_layout B F ML into from ->
    steady_flow A T ML (fun s => into (sh_start s)) (fun f => from (sh_finish w f)).
  Proof.
    intros [S1 S2]. split; [|split].
    - intros s f Jn. apply S1. exact (joined_sh w h T ML fr_w (p2_left w h ul a PF T R) (p2_right w h ul a PF T R) fr_in fr_out s f Jn).
    - intros p Hp Sp. destruct (p2_used w h ul a PF T R p Hp Sp) as [U1 U2]. split; intros N; contradiction.
    - intros s Hs. destruct (S2 _ (splitter_sh w h T s Hs)) as [E1 E2]. cbn [fst snd] in E1, E2. cbn [sh_start sh_finish]. split; [exact E2|]. intros _ _. exact E1.
  Qed.

  Theorem fr_share into from : steady_layout B F ML into from -> forall y, 0 <= y < h ->
    (inject_Z h * from (Leave ((w + 3)%Z, y)) == qsum (map (fun z => into (Enter (0%Z, Z.of_nat z))) (seq 0 (Z.to_nat h))))%Q.
  Proof.
    intros St y Hy. pose proof (fr_flow into from St) as Sf. destruct St as [S1 S2].
    pose proof (p2_bits w h ul a PF T R) as [B1 B2]. pose proof (p2_size w h ul a PF T R) as (H4 & Hk & _).
    assert (In2 : forall c, 0 <= c < h / 2 -> (into (Exit (1%Z, (2 * c)%Z)) == into (Exit (1%Z, (2 * c + 1)%Z)) /\
      2 * into (Exit (1%Z, (2 * c)%Z)) == into (Enter (0%Z, (2 * c)%Z)) + into (Enter (0%Z, (2 * c + 1)%Z)))%Q).
    { intros c Hc. destruct (S2 _ (column_splitter w h T fr_w fr_he 1 c (or_introl eq_refl) Hc)) as [E1 E2]. cbn [fst snd] in E1, E2.
      rewrite (S1 _ _ (enter_column w h T ML fr_w (2 * c) ltac:(lia))) in E2. rewrite (S1 _ _ (enter_column w h T ML fr_w (2 * c + 1) ltac:(lia))) in E2. split; lra. }
    pose proof (p2_flow w h ul a PF T R _ _ Sf (fun c Hc => proj1 (In2 c Hc))) as Fl. cbn [sh_start sh_finish snd] in Fl.
    set (m := y / 2). assert (Hm : 0 <= m < h / 2) by (unfold m; split; [apply Z.div_pos; lia|apply Z.div_lt_upper_bound; lia]).
    destruct (S2 _ (column_splitter w h T fr_w fr_he (w + 2) m (or_intror eq_refl) Hm)) as [E1 E2]. cbn [fst snd] in E1, E2.
    pose proof (Fl (2 * m) ltac:(lia)) as Fa. pose proof (Fl (2 * m + 1) ltac:(lia)) as Fb.
    assert (Lv : (2 * from (Leave ((w + 3)%Z, y)) == from (Entrance ((w + 2)%Z, (2 * m)%Z)) + from (Entrance ((w + 2)%Z, (2 * m + 1)%Z)))%Q).
    { rewrite (S1 _ _ (leave_column w h T ML fr_w y Hy)).
      pose proof (Z.div_mod y 2 ltac:(lia)) as Dm. pose proof (Z.mod_pos_bound y 2 ltac:(lia)) as Mb. fold m in Dm. assert (Ey : y = 2 * m \/ y = 2 * m + 1) by lia. destruct Ey as [Ey|Ey]; rewrite Ey; lra. }
    assert (Sum : (inject_Z (2 ^ Z.of_nat k) * (2 * from (Leave ((w + 3)%Z, y))) == qsum (map (fun c => into (Exit (1%Z, (2 * Z.of_nat c)%Z))) (seq 0 bits)))%Q).
    { rewrite Lv, Qmult_plus_distr_r, Fa, Fb, <- qsum_add. apply qsum_ext. intros c Hc. apply in_seq in Hc. rewrite (p2_pair w h ul a PF m c Hm) by lia.
      destruct (bit_at _ _ _); cbn [negb]; ring. }
    replace (Z.to_nat h) with (2 * bits)%nat by lia. rewrite (qsum_pairs (fun z => into (Enter (0%Z, z)))).
    rewrite (qsum_ext _ (fun c => into (Exit (1%Z, (2 * Z.of_nat c)%Z)) + into (Exit (1%Z, (2 * Z.of_nat c)%Z)))%Q).
    - rewrite qsum_add, <- Sum. rewrite Hk at 1. rewrite inject_Z_mult. change (inject_Z 4) with 4%Q. ring.
    - intros c Hc. apply in_seq in Hc. destruct (In2 (Z.of_nat c) ltac:(lia)) as [_ E]. rewrite <- E. ring.
  Qed.
  Theorem fr_balanced : balanced_layout B F ML.
  Proof.
    intros into from ins outs St [Ni Hi] [No Ho] p Hp. pose proof fr_h as H0.
    assert (Pi : Permutation ins (rows 0 0 h)).
    { apply NoDup_Permutation; [exact Ni|apply rows_NoDup|]. intros q. rewrite rows_in by lia. rewrite (Hi q). rewrite (framed_inlet w h T ML fr_w (p2_left w h ul a PF T R) fr_in q). lia. }
    assert (Po : Permutation outs (rows (w + 3) 0 h)).
    { apply NoDup_Permutation; [exact No|apply rows_NoDup|]. intros q. rewrite rows_in by lia. rewrite (Ho q). rewrite (framed_outlet w h T ML fr_w (p2_right w h ul a PF T R) fr_out q). lia. }
    rewrite (Permutation_length Po), rows_length by lia. pose proof (Permutation_in p Po Hp) as Hr. apply rows_in in Hr; [|lia]. destruct p as [x y]. cbn [fst snd] in Hr. destruct Hr as [-> Hy].
    rewrite (fr_share into from St y) by lia. unfold qsum.
    rewrite (P_Flow.qsum_perm _ _ (Permutation_map (fun q => into (Enter q)) Pi)). unfold rows. rewrite map_map. reflexivity.
  Qed.
End Framed.
