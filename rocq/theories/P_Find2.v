(** What solve_balancer returns. *)
From Coq Require Import String ZArith List Bool Lia.
From Verif Require Import P_Network P_Network2 P_Benes P_Nonneg P_Similar T_Network.
From Verif Require Import Spec_Cnf Spec_Tile Spec_Layout Spec_Pattern Spec_Main M_Json M_Tile M_Util M_Card M_Network Spec_Network M_Template M_Grid M_Oracle M_Balancer M_Optimise M_Solve M_Main M_Optimal M_Find
  P_Cnf P_Util P_Util3 P_Card P_Tile P_Layout T_Tile P_List P_Template P_Walk P_Grid P_GridSound P_GridComplete P_Transport T_Grid T_Enumerate P_GridOk P_Gen P_Balancer
  Spec_Balancer P_Trace P_Realise P_Ends T_Balancer P_Lossless T_Lossless Spec_Edge P_Edge T_Edge P_Connect P_Main P_Pow2Total P_MainTotal Spec_Optimal Spec_Find P_OptOk P_Allocate P_Find.
From Verif Require P_Cut2 T_Mirror P_NetTotal T_Template P_Colours4.
Import ListNotations.
Open Scope Z_scope.

(** ** Reading a model *)
Lemma mapping_some m v : mapping_of m v <> None <-> In v (map Z.abs m).
Proof.
  induction m as [|l m IH]; cbn [mapping_of map In]; [tauto|]. destruct (mapping_of m v) as [b|] eqn:E.
  - split; [intros _; right; apply IH; discriminate|discriminate].
  - destruct (Z.eqb_spec (Z.abs l) v); [split; [intros _; left; assumption|discriminate]|]. split; [tauto|]. intros [?|H]; [contradiction|]. apply IH in H. congruence.
Qed.
Lemma mapping_value m v : Forall nonzero m -> NoDup (map Z.abs m) -> 0 < v -> of_mapping (mapping_of m) v = existsb (Z.eqb v) m.
Proof.
  unfold of_mapping. intros Nz Nd Hv. induction m as [|l m IH]; [reflexivity|]. cbn [mapping_of existsb map] in *. inversion_clear Nz as [|? ? N1 N2]. inversion_clear Nd as [|? ? D1 D2]. specialize (IH N2 D2).
  destruct (mapping_of m v) as [b|] eqn:E.
  - assert (I : In v (map Z.abs m)) by (apply mapping_some; congruence). destruct (Z.eqb_spec v l) as [->|]; [|exact IH]. exfalso. apply D1. rewrite Z.abs_eq by lia. exact I.
  - rewrite <- IH. rewrite orb_false_r. unfold nonzero in N1. destruct (Z.eqb_spec (Z.abs l) v) as [Ev|Ev], (Z.eqb_spec v l) as [El|El], (Z.ltb_spec 0 l); try reflexivity; lia.
Qed.
Lemma repeat_length (f : Z -> instance * Z) n : forall top, List.length (fst (repeat_instantiate f n top)) = n.
Proof. induction n as [|n IH]; intros top; [reflexivity|]. cbn [repeat_instantiate]. destruct (f top) as [i t1]. specialize (IH t1). destruct (repeat_instantiate f n t1) as [is_ t2]. cbn [fst List.length] in *. rewrite IH. reflexivity. Qed.
Lemma rows_length t h w : forall top r, In r (fst (instantiate_rows t h w top)) -> List.length r = w.
Proof.
  induction h as [|h IH]; intros top r; cbn [instantiate_rows]; [intros []|]. pose proof (repeat_length (instantiate t) w top) as L. destruct (repeat_instantiate (instantiate t) w top) as [r1 t1]. cbn [fst] in L.
  specialize (IH t1 r). destruct (instantiate_rows t h w t1) as [rs t2]. cbn [fst In] in *. intros [<-|H]; [exact L|apply IH; exact H].
Qed.
Lemma parse_written g m T : wf_grid g -> wf_extras g -> (forall v, gtop g < v <= grid_size g -> mapping_of m v <> None) -> reads g (of_mapping (mapping_of m)) T ->
  parse_solution g m = Some (Spec_Main.written T (width (geo g)) (height (geo g))).
Proof.
  intros W X HM R. pose proof W as ([Hw Hh] & _).
  assert (K : forall x y, 0 <= x < width (geo g) -> 0 <= y < height (geo g) -> exists row i, nth_error (grid_tiles g) (Z.to_nat y) = Some row /\ nth_error row (Z.to_nat x) = Some i /\ parse_cell g (mapping_of m) i = Some (T (x, y))).
  { intros x y Hx Hy. pose proof (tile_instance_spec (tile_template g) (height (geo g)) (width (geo g)) (gtop g) x y Hx Hy) as TI.
    fold (grid_tiles g) in TI. unfold tile_instance in TI.
    replace ((0 <=? x) && (0 <=? y)) with true in TI by (symmetry; rewrite andb_true_iff, !Z.leb_le; lia).
    destruct (nth_error (grid_tiles g) (Z.to_nat y)) as [row|]; [|discriminate]. cbn [obind] in TI. exists row. eexists. split; [reflexivity|]. split; [exact TI|].
    change (gtop g + (y * width (geo g) + x) * Z.of_nat (variable_count (tile_template g))) with (tile_base g (x, y)).
    assert (Hp : inside (garea g) (x, y)) by (split; cbn; lia). rewrite (parse_cell_spec g _ (x, y) W X Hp); [apply R; exact Hp|].
    intros v Hv. apply HM. pose proof (tile_base_nonneg g (x, y) W Hp). pose proof (tile_base_top g (x, y) W Hp). pose proof W as (_ & Ht & _). unfold tile_base in *. cbn [fst snd] in *. assert (0 <= (y * width (geo g) + x) * tile_size g) by (pose proof (tile_size_pos g); nia). lia. }
  destruct (instantiate_rows_spec (tile_template g) (Z.to_nat (height (geo g))) (Z.to_nat (width (geo g))) (gtop g)) as (_ & L & _ & _). fold (grid_tiles g) in L.
  unfold parse_solution, Spec_Main.written.
  assert (F : forall (A B : Type) (f : A -> option B) (G : nat -> B) (l : list A), (forall k x, nth_error l k = Some x -> f x = Some (G k)) -> omap f l = Some (map G (seq 0 (List.length l)))).
  { clear. intros A B f G l. revert G. induction l as [|x l IH]; intros G H; [reflexivity|]. cbn [omap List.length seq map]. rewrite (H 0%nat x eq_refl). cbn [obind]. rewrite (IH (fun k => G (S k))) by (intros k z Hz; apply (H (S k)); exact Hz). cbn [obind].
    rewrite <- seq_shift, map_map. reflexivity. }
  rewrite <- L. apply F. intros k row Hk.
  assert (Hl : (k < Z.to_nat (height (geo g)))%nat) by (rewrite <- L; apply nth_error_Some; congruence).
  assert (Rl : List.length row = Z.to_nat (width (geo g))) by (eapply rows_length; eapply nth_error_In; exact Hk).
  rewrite <- Rl. apply F. intros j i Hi.
  assert (Hj : (j < Z.to_nat (width (geo g)))%nat) by (rewrite <- Rl; apply nth_error_Some; congruence).
  destruct (K (Z.of_nat j) (Z.of_nat k) ltac:(lia) ltac:(lia)) as (row' & i' & E1 & E2 & E3). rewrite Nat2Z.id in E1, E2. rewrite Hk in E1. apply Some_inj in E1. subst row'. rewrite Hi in E2. apply Some_inj in E2. subst i'. exact E3.
Qed.

(** ** The answers *)
Lemma wanted_asks net u w h T ic n oc m : get_input_output_colours net = Some ((ic, n), (oc, m)) ->
  (wanted net (u, w, h) T <-> search_asks net u w h ic n oc m T).
Proof.
  intros E. unfold wanted, search_asks. split.
  - intros (ic' & n' & oc' & m' & P & wire & E' & H1 & H2 & H3 & H4). rewrite E in E'. injection E' as <- <- <- <-. split; [exact H1|]. split; [exists P, wire; auto|exact H4].
  - intros (H1 & (P & wire & H2 & H3) & H4). exists ic, n, oc, m, P, wire. auto.
Qed.
Lemma search_ends E net u w h g cs top : search_clauses E net (u, w, h) = Some (g, cs, top) -> exists ic n oc m, get_input_output_colours net = Some ((ic, n), (oc, m)).
Proof.
  intros H. destruct (search_split E net u w h g cs top H) as (cs0 & top0 & cn & t1 & ce & _ & _ & Ee & _). unfold enforce_edge_splitters in Ee. rewrite deduplicate_ends in Ee.
  destruct (get_input_output_colours net) as [[[ic n] [oc m]]|]; [eauto 6|discriminate].
Qed.
(** The clauses have a solution exactly if there is a layout. *)
Lemma search_feasible E net u w h g cs top : honest E -> nonneg net -> complete net -> 1 <= u -> search_clauses E net (u, w, h) = Some (g, cs, top) ->
  ((exists a, sat a cs = true) <-> feasible shows_wanted net (u, w, h)).
Proof.
  intros HE Hn Cm Hu H. destruct (search_ends E net u w h g cs top H) as (ic & n & oc & m & Ends).
  assert (X := fun T => search_exactly E net u w h g cs top T ic n oc m HE Hn Cm Hu Ends H). split.
  - intros (a & Sa). destruct (search_split E net u w h g cs top H) as (cs0 & top0 & cn & t1 & ce & C & _ & _ & _ & _ & Sat).
    assert (Hul0 : match Some u with Some l => 0 <= l | None => True end) by lia.
    destruct (create_balancer_spec E _ w h (Some u) g cs0 top0 HE (dedup_nonneg net Hn) Hul0 C) as (ic' & n' & oc' & m' & Ee' & W & _ & _ & _ & En0 & _ & _).
    apply Sat in Sa as Sa'. destruct Sa' as (S0 & _). pose proof (proj1 En0 a S0) as B. assert (Si : solves_init g a) by apply B.
    destruct (proj2 (C44_decodes g a W) Si) as (T & R & _). exists (Spec_Main.written T w h), T. split; [reflexivity|]. apply (wanted_asks net u w h T ic n oc m Ends). apply X. eauto.
  - intros (rows & T & _ & Wt). apply (wanted_asks net u w h T ic n oc m Ends) in Wt. apply X in Wt. destruct Wt as (a & Sa & _). eauto.
Qed.
Lemma solve_some E solver net u w h g cs top : honest E -> nonneg net -> complete net -> 1 <= u -> 2 <= w -> full_answers solver ->
  search_clauses E net (u, w, h) = Some (g, cs, top) ->
  exists r, solve_balancer E solver net (u, w, h) = Some r /\ truthful shows_wanted net (u, w, h) r.
Proof.
  intros HE Hn Cm Hu Hw Fa H. pose proof (search_ok E net u w h g cs top HE Hn Hu Hw H) as Ok. pose proof (search_feasible E net u w h g cs top HE Hn Cm Hu H) as Fe.
  assert (Nz : Forall (Forall nonzero) cs) by (eapply Forall_impl; [|exact Ok]; intros c Hc; eapply Forall_impl; [|exact Hc]; intros l Hl; unfold lit_ok, nonzero in *; lia).
  specialize (Fa cs Nz). unfold solve_balancer. rewrite H. cbn [obind]. unfold solve. destruct (solver cs) as [m|].
  - destruct Fa as (Mz & Md & Cov & Sa). destruct (search_ends E net u w h g cs top H) as (ic & n & oc & k & Ends).
    destruct (search_split E net u w h g cs top H) as (cs0 & top0 & cn & t1 & ce & C & _ & _ & _ & (rest & Ecs) & Sat).
    assert (Hul0 : match Some u with Some l => 0 <= l | None => True end) by lia.
    destruct (create_balancer_spec E _ w h (Some u) g cs0 top0 HE (dedup_nonneg net Hn) Hul0 C) as (ic' & n' & oc' & m' & Ee' & W & (t & _ & Eg & _) & Hs & _ & En0 & _ & _).
    assert (Hex : gextras g = [("node"%string, TSized OneHot (List.length (deduplicate_network net)))]) by (subst g; reflexivity).
    assert (Hgt : gtop g = 0) by (subst g; reflexivity). assert (Hc : exists c, gcolours g = Some c) by (subst g; eexists; reflexivity).
    assert (Ew : width (geo g) = w) by (subst g; reflexivity). assert (Eh : height (geo g) = h) by (subst g; reflexivity). clear Eg.
    assert (Ne : (0 < List.length (deduplicate_network net))%nat) by (pose proof (ends_nonempty _ _ _ _ _ Ee') as N; destruct (deduplicate_network net); [contradiction|cbn; lia]).
    assert (X : wf_extras g).
    { destruct Hc as [c Hc]. unfold wf_extras, own_names. rewrite Hex, Hc. split; [cbn; repeat (constructor; [cbn; intuition discriminate|]); constructor|constructor; [|constructor]]. cbn [snd]. exact Logic.I. }
    destruct (last_variable E _ w h (Some u) g cs0 top0 W Ne C Hex) as (c & l & Ic & Il & El).
    assert (Cv : forall v, gtop g < v <= grid_size g -> In v (map Z.abs m)) by (intros v Hv; apply (Cov c l v); [rewrite Ecs; apply in_or_app; left; exact Ic|exact Il|lia]).
    set (a := fun v => existsb (Z.eqb v) m) in *. apply Sat in Sa as Sa'. destruct Sa' as (S0 & _). pose proof (proj1 En0 a S0) as B. assert (Si : solves_init g a) by apply B.
    destruct (proj2 (C44_decodes g a W) Si) as (T & R & _).
    assert (Ag : agree (grid_size g) a (of_mapping (mapping_of m))) by (intros v Hv; symmetry; apply mapping_value; [exact Mz|exact Md|lia]).
    rewrite (parse_written g m T W X).
    + cbn [obind]. rewrite Ew, Eh. eexists. split; [reflexivity|]. cbn [truthful]. exists T. split; [reflexivity|]. apply (wanted_asks net u w h T ic n oc k Ends).
      apply (search_exactly E net u w h g cs top T ic n oc k HE Hn Cm Hu Ends H). eauto.
    + intros v Hv. apply mapping_some. apply Cv. exact Hv.
    + intros p Hp; rewrite <- (R p Hp); f_equal; symmetry; apply (parse_tile_agree (grid_size g) a _ _ Ag); apply tile_at_lits; assumption.
  - exists None. split; [reflexivity|]. cbn [truthful]. intros F. apply Fe in F. destruct F as [a Sa]. rewrite Fa in Sa. discriminate.
Qed.
