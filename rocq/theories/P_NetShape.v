(** Layouts with straight ends on the left and on the right, and no other way in
    or out. *)
From Coq Require Import String ZArith QArith List Bool Lia Lqa Permutation.
From Verif Require Import Spec_Cnf Spec_Tile Spec_Layout M_Json M_Tile M_Util M_Card M_Network Spec_Network M_Template M_Grid
  Spec_Balancer Spec_Flow P_Cnf P_Tile P_Layout P_List P_Template P_Walk P_Grid P_GridSound T_Grid P_Trace P_Uniq P_FlowWitness P_NetEnds.
Import ListNotations.
Open Scope Z_scope.

Section Shape.
  Variable g : grid.
  Hypothesis W : wf_grid g.
  Hypothesis CX : wrap_x (geo g) = false.
  Hypothesis CY : wrap_y (geo g) = false.
  Variable a : assignment.
  Hypothesis So : solves g (EBool true) a.
  Variable T : layout.
  Hypothesis R : reads g a T.
  Notation A := (garea g).
  Notation V p := (view_of a (tile_at g p)).
  Notation w := (width (geo g)).
  Notation h := (height (geo g)).
  Notation L := (max_hidden g).
  Hypothesis BE : edge_belt_rule g a (EPair false true).
  Hypothesis NS : forall y, 0 <= y < h -> ~ is_splitter_tile (T (0, y)) /\ ~ is_splitter_tile (T (w - 1, y)).
  Let S : solves_init g a := proj1 So.
  Let Ix : sat a (prevent_intersection g) = true := proj1 (proj2 So).
  Let HA : wf_area A := WA g W.

  Lemma closed_valid : valid_layout A T L.
  Proof.
    apply (C49_solutions_are_valid_layouts g (EBool true) a T W); [|exact So|exact R]. unfold edges_cover. cbn. auto.
  Qed.
  Notation sight := (seen g W a S T R).
  Lemma no_border_splitter p d k : inside A p -> T p = Splitter d k -> neighbour A p d <> None /\ neighbour A p (opposite d) <> None.
  Proof.
    intros Hp Tp. destruct (splitter_seen g W a S T R p d k Hp Tp) as (_ & _ & Oi & Oo & U).
    assert (X : forall e, e = d \/ e = opposite d -> neighbour A p e <> None); [|split; apply X; auto].
    intros e He En. destruct (neighbour_none A p e HA Hp En) as [_ Ex].
    assert (K : at_edge g (EPair false true) p e \/ is_horizontal e = true).
    { destruct e; cbn in *; auto; left; split; auto. }
    destruct K as [K|K].
    - destruct (BE p e Hp K) as ((B1 & B2) & B3 & B4). destruct He as [->|He].
      + destruct U as [U|U]; [|congruence]. destruct (B3 U) as (f & Hf). rewrite (Oo f Hf) in Hf. congruence.
      + subst e. rewrite opposite_opposite in *. destruct U as [U|U]; [congruence|]. destruct (B4 U) as (f & Hf). rewrite (Oi f Hf) in Hf. congruence.
    - assert (Q : T p = T (0, snd p) \/ T p = T (w - 1, snd p)).
      { destruct p as [x y]. destruct e; try discriminate; cbn [fst snd] in *; rewrite Ex; auto. }
      destruct Hp as [_ Hy]. destruct (NS (snd p) Hy) as [N1 N2]. destruct Q as [Q|Q]; rewrite Tp in Q; rewrite <- Q in *; [apply N1|apply N2]; exact Logic.I.
  Qed.

  Variables n m i j : Z.
  Hypothesis Hn : 0 < n.
  Hypothesis Hm : 0 < m.
  Hypothesis EL : straight_ends T (fun y => (0, y)) h n i.
  Hypothesis ER : straight_ends T (fun y => (w - 1, y)) h m j.

  Lemma rows_in x k c p : 0 <= c -> (In p (rows x k c) <-> fst p = x /\ k <= snd p < k + c).
  Proof.
    intros Hc. unfold rows. rewrite in_map_iff. split.
    - intros (q & <- & Hq). apply in_seq in Hq. cbn [fst snd]. lia.
    - intros [E H]. exists (Z.to_nat (snd p - k)). split; [destruct p; cbn in *; subst; f_equal; lia|]. apply in_seq. lia.
  Qed.
  Lemma rows_NoDup x k c : NoDup (rows x k c).
  Proof. unfold rows. apply FinFun.Injective_map_NoDup; [intros u v [= E]; lia|apply seq_NoDup]. Qed.
  Lemma rows_length x k c : 0 <= c -> Z.of_nat (List.length (rows x k c)) = c.
  Proof. intros H. unfold rows. rewrite map_length, seq_length. lia. Qed.

  Lemma left_tile y : 0 <= y < h -> T (0, y) = (if (i <=? y) && (y <? i + n) then Belt RIGHT RIGHT else Empty) .
  Proof. intros Hy. destruct EL as [_ E]. apply (E y Hy). Qed.
  Lemma right_tile y : 0 <= y < h -> T (w - 1, y) = (if (j <=? y) && (y <? j + m) then Belt RIGHT RIGHT else Empty) .
  Proof. intros Hy. destruct ER as [_ E]. apply (E y Hy). Qed.

  Lemma entries p : begins A T (Enter p) p <-> In p (rows 0 i n).
  Proof.
    rewrite rows_in by lia. pose proof W as ((Ww & Wh) & _). destruct EL as [Hi _]. split.
    - intros (_ & Hp & d & Tk & En). assert (Ns : ~ is_splitter_tile (T p)).
      { intros Sp. destruct (T p) as [| | | |e k| |] eqn:Tp; try contradiction. cbn in Tk. subst e. apply (no_border_splitter p d k Hp Tp). exact En. }
      destruct (neighbour_none A p (opposite d) HA Hp En) as [_ Ex]. pose proof (shows_takes_inv _ _ d (sight p Hp) Tk Ns) as Vi.
      pose proof Hp as [Hx Hy]. destruct p as [x y]. cbn [fst snd] in *. change (aw A) with w in *. change (ah A) with h in *. destruct d; cbn [opposite] in Ex.
      + subst x. split; [reflexivity|]. rewrite left_tile in Tk by exact Hy. destruct (Z.leb_spec i y), (Z.ltb_spec y (i + n)); cbn in Tk; try contradiction. lia.
      + destruct (BE (x, y) DOWN Hp) as ((B1 & _) & _); [split; [reflexivity|exact Ex]|]. cbn [opposite] in B1. congruence.
      + subst x. rewrite right_tile in Tk by exact Hy. destruct (_ && _) in Tk; cbn in Tk; [discriminate|contradiction].
      + destruct (BE (x, y) UP Hp) as ((B1 & _) & _); [split; [reflexivity|exact Ex]|]. cbn [opposite] in B1. congruence.
    - destruct p as [x y]. cbn [fst snd]. intros [-> Hy]. assert (Hh : 0 <= y < h) by lia. assert (Hp : inside A (0, y)) by (split; cbn; lia).
      split; [reflexivity|]. split; [exact Hp|]. exists RIGHT. rewrite left_tile by exact Hh. split.
      + replace ((i <=? y) && (y <? i + n)) with true by (symmetry; rewrite andb_true_iff, Z.leb_le, Z.ltb_lt; lia). reflexivity.
      + cbn [opposite]. unfold neighbour, ahead, place. cbn [garea area_of wrapx wrapy]. rewrite CX, CY. reflexivity.
  Qed.
  Lemma departures p : reaches A T (Leave p) p <-> In p (rows (w - 1) j m).
  Proof.
    rewrite rows_in by lia. pose proof W as ((Ww & Wh) & _). destruct ER as [Hj _]. split.
    - intros (_ & Hp & Ns & d & Pd & En).
      destruct (neighbour_none A p d HA Hp En) as [_ Ex]. pose proof (shows_pushes_inv _ _ d (sight p Hp) Pd Ns) as Vo.
      pose proof Hp as [Hx Hy]. destruct p as [x y]. cbn [fst snd] in *. change (aw A) with w in *. change (ah A) with h in *. destruct d.
      + subst x. split; [reflexivity|]. rewrite right_tile in Pd by exact Hy. destruct (Z.leb_spec j y), (Z.ltb_spec y (j + m)); cbn in Pd; try contradiction. lia.
      + destruct (BE (x, y) UP Hp) as ((_ & B1) & _); [split; [reflexivity|exact Ex]|]. congruence.
      + subst x. rewrite left_tile in Pd by exact Hy. destruct (_ && _) in Pd; cbn in Pd; [discriminate|contradiction].
      + destruct (BE (x, y) DOWN Hp) as ((_ & B1) & _); [split; [reflexivity|exact Ex]|]. congruence.
    - destruct p as [x y]. cbn [fst snd]. intros [-> Hy]. assert (Hh : 0 <= y < h) by lia. assert (Hp : inside A (w - 1, y)) by (split; cbn; lia).
      split; [reflexivity|]. split; [exact Hp|]. rewrite right_tile by exact Hh.
      replace ((j <=? y) && (y <? j + m)) with true by (symmetry; rewrite andb_true_iff, Z.leb_le, Z.ltb_lt; lia).
      split; [intros []|]. exists RIGHT. split; [reflexivity|].
      unfold neighbour, ahead, place, insideb. cbn [garea area_of wrapx wrapy aw ah fst snd]. rewrite CX, CY. cbn [step_x step_y].
      destruct (Z.ltb_spec (w - 1 + 1 * 1) w) as [C|C]; [lia|]. rewrite andb_false_r. reflexivity.
  Qed.
  Lemma entries_list : inlets A T (rows 0 i n).
  Proof. split; [apply rows_NoDup|]. intros p. symmetry. apply entries. Qed.
  Lemma departures_list : outlets A T (rows (w - 1) j m).
  Proof. split; [apply rows_NoDup|]. intros p. symmetry. apply departures. Qed.

  (** [n] numbers on every cell, one for each source. *)
  Variable G : nat -> pos -> Z.
  Variables full out : Z.
  Hypothesis Hfull : 0 < full.
  Hypothesis Hshare : out * m = full.
  Hypothesis GC : forall c p q, (c < Z.to_nat n)%nat -> carried A T L p q -> G c p = G c q.
  Hypothesis GI : forall c y, (c < Z.to_nat n)%nat -> 0 <= y < h -> G c (0, y) = if y mod n =? Z.of_nat c then full else 0.
  Hypothesis GO : forall c y, (c < Z.to_nat n)%nat -> 0 <= y < h -> G c (w - 1, y) = out.
  Hypothesis NT : no_touching g a T.
  Hypothesis GS : forall c s, (c < Z.to_nat n)%nat -> is_splitter_at A T s ->
    into_of g a T (G c) (Exit (fst s)) + into_of g a T (G c) (Exit (snd s)) = from_of g a T (G c) (Entrance (fst s)) + from_of g a T (G c) (Entrance (snd s)) /\
    forall d, T (fst s) = Splitter d true -> vo (V (fst s)) d = true -> vo (V (snd s)) d = true ->
      into_of g a T (G c) (Exit (fst s)) = into_of g a T (G c) (Exit (snd s)).

  Lemma zero_steady : steady_flow A T L (fun _ => 0%Q) (fun _ => 0%Q).
  Proof.
    split; [intros; reflexivity|]. split; [intros; split; intros; reflexivity|]. intros. split; [reflexivity|intros; reflexivity].
  Qed.
  Lemma equal_shares : shares_equally A T L.
  Proof.
    intros into from ins outs St Hins Houts p Hp.
    assert (U : forall into from, steady_flow A T L into from -> forall p, In p outs -> (from (Leave p) == inject_Z out / inject_Z full * qsum (map (fun q => into (Enter q)) ins))%Q).
    { apply (shares_by_units A T L HA closed_valid ins outs _ Hins Houts). intros q Hq. apply (proj2 Hins) in Hq. apply entries in Hq. apply rows_in in Hq; [|lia].
      destruct q as [x y0]. cbn [fst snd] in Hq. destruct Hq as [-> Hy0]. set (c := Z.to_nat (y0 mod n)). pose proof (Z.mod_pos_bound y0 n Hn) as Hmod. assert (Hc : (c < Z.to_nat n)%nat) by (unfold c; lia).
      pose proof (flow_witness g W a S Ix T R L closed_valid no_border_splitter NT (G c) (fun p q => GC c p q Hc) (fun s => GS c s Hc)) as F.
      eexists _, _. split; [exact (steady_combine A T L _ _ _ _ (/ inject_Z full) zero_steady F)|]. destruct EL as [Hi _]. destruct ER as [Hj _].
      assert (Nf : ~ (inject_Z full == 0)%Q) by (unfold Qeq; cbn; lia). split.
      - intros r Hr. apply (proj2 Hins) in Hr. apply entries in Hr. apply rows_in in Hr; [|lia]. destruct r as [x y]. cbn [fst snd] in Hr. destruct Hr as [-> Hy].
        cbn [into_of]. rewrite GI by (exact Hc || lia). unfold c. rewrite Z2Nat.id by lia.
        destruct (pos_dec (0, y) (0, y0)) as [E|N].
        + injection E as ->. rewrite Z.eqb_refl. field. exact Nf.
        + destruct (Z.eqb_spec (y mod n) (y0 mod n)) as [E|E]; [|cbn; ring]. exfalso. apply N. f_equal.
          pose proof (Z.div_mod y n ltac:(lia)). pose proof (Z.div_mod y0 n ltac:(lia)). rewrite E in *. generalize dependent (y0 mod n). intros. assert (y / n = y0 / n) by nia. lia.
      - intros q Hq. apply (proj2 Houts) in Hq. apply departures in Hq. apply rows_in in Hq; [|lia]. destruct q as [x y]. cbn [fst snd] in Hq. destruct Hq as [-> Hy].
        cbn [from_of]. rewrite GO by (exact Hc || lia). field. exact Nf. }
    rewrite (U into from St p Hp). assert (El : Z.of_nat (List.length outs) = m).
    { rewrite <- (rows_length (w - 1) j m) by lia. f_equal. apply Permutation_length. apply NoDup_Permutation; [apply Houts|apply rows_NoDup|].
      intros q. rewrite <- departures. apply (proj2 Houts). }
    rewrite El. fold (qsum (map (fun q => into (Enter q)) ins)). rewrite <- Hshare, inject_Z_mult.
    assert (0 < out) by nia. field. split; unfold Qeq; cbn; lia.
  Qed.
End Shape.
