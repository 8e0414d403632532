(** Property theorem C114: everything that belt_balancer_net_free.py prints when
    the numbers of inputs and outputs differ. *)
From Coq Require Import String ZArith QArith List Bool Lia.
From Verif Require Import P_Network P_Network2 P_Benes P_Nonneg P_Similar T_Network.
From Verif Require Import Spec_Cnf Spec_Tile Spec_Layout Spec_Pattern Spec_Main M_Json M_Tile M_Util M_Card M_Network Spec_Network M_Template M_Grid M_Oracle M_Balancer M_Optimise M_NetFree M_Solve M_Main M_Partial
  Spec_Balancer Spec_Flow Spec_Interchange Spec_Pow2 Spec_Free Spec_Share P_Cnf P_Util P_Util3 P_Card P_Tile P_Layout P_List P_Template P_Walk P_Grid P_GridSound P_GridComplete P_Transport T_Template T_Grid T_Enumerate P_GridOk P_Gen P_Trace P_Uniq P_FlowWitness
  P_NetEnds P_NetShape P_Balancer T_Lossless P_NetFree P_NetFree2 P_NetTotal P_Connect P_Solve P_Main P_MainTotal P_Pow2Exact P_FreeExact P_ShareExact P_ShareSound T_NetDemo T_Pow2.
From Verif Require P_Lossless P_Once P_Partial P_Allocate T_Edge T_Main.
Import ListNotations.
Open Scope Z_scope.

(** What is asked of the layout [T]: it has the form of Spec_Share, and with
    --aligned the rows of the fewer belts are among those of the others; it has
    none of the patterns the program avoids (Spec_Main) and contains the tiles of
    --partial.  [l] is the argument of --underground-length. *)
Definition share_wanted (w h l n m : Z) (al : bool) (partial : option (list (list tile))) (T : layout) : Prop :=
  let L := longest w h (length_option l) in
  (exists i j, open_sides w h L n m T i j /\ (al = true -> if m <=? n then i <= j <= i + n - m else j <= i <= j + m - n) /\
     exists F B, measured_twice w h L n m T i j F B) /\
  asked (free_options l partial) (rectangle w h) 0 0 T.

(** The layouts that have a solution in which splitters that face each other are
    connected.  Without that condition there are others, which need not share
    equally (C71_shares_refuted). *)
Theorem C114_exactly w h l n m al partial g cs top T : n <> m -> net_free_main w h l n m al partial = Some (g, cs, top) ->
  (exists a, sat a cs = true /\ reads g a T /\ no_touching g a T) <-> share_wanted w h l n m al partial T.
Proof. apply share_exactly. Qed.
(** Where no splitter faces the back of another one, the condition says nothing. *)
Lemma apart_linked g a T : apart (garea g) T -> no_touching g a T.
Proof. intros Ap p d k q k' Hp Tp Nq Tq. exfalso. exact (Ap p d k q k' Hp Tp Nq Tq). Qed.
Lemma share_area w h l n m al partial g cs top : net_free_main w h l n m al partial = Some (g, cs, top) -> garea g = rectangle w h.
Proof.
  intros Hma. destruct (share_split _ _ _ _ _ _ _ _ _ _ Hma) as (_ & _ & _ & _ & _ & _ & _ & created & ends & Ec & _).
  destruct (free_grid _ _ _ _ _ _ _ Ec) as (_ & _ & _ & _ & [-> | (M & ->)]); reflexivity.
Qed.
Theorem C114_apart w h l n m al partial g cs top T : n <> m -> net_free_main w h l n m al partial = Some (g, cs, top) -> apart (rectangle w h) T ->
  (exists a, sat a cs = true /\ reads g a T) <-> share_wanted w h l n m al partial T.
Proof.
  intros Hnm Hma Ap. rewrite <- (C114_exactly w h l n m al partial g cs top T Hnm Hma). rewrite <- (share_area _ _ _ _ _ _ _ _ _ _ Hma) in Ap.
  split; intros (a & Sa & R); exists a; [split; [exact Sa|split; [exact R|apply apart_linked; exact Ap]]|tauto].
Qed.
(** Layouts of that form share what they get equally among the outputs, with
    patterns that are avoided or without. *)
Theorem C114_form_shares w h L n m T i j F B : 0 < w -> 0 < h -> 0 < n -> 0 < m -> n <> m -> 1 <= L ->
  open_sides w h L n m T i j -> measured_twice w h L n m T i j F B -> shares_equally (rectangle w h) T L.
Proof. apply share_form_shares. Qed.

(** With --all and a truthful solver each layout of that form is printed, and
    just once if no splitter faces the back of another one. *)
Theorem C114_every_layout w h l n m al partial g cs top vs dom solver : n <> m ->
  net_free_main w h l n m al partial = Some (g, cs, top) -> important_variables g [] true = Some vs ->
  correct_solver dom solver -> in_dom dom cs -> (forall v, In v vs -> In v dom) ->
  exists ms, (exists fuel, itersolve solver vs fuel cs = Some ms) /\
    (forall T, share_wanted w h l n m al partial T -> exists i k, nth_error ms i = Some k /\ reads g (model_assignment k) T /\
       (apart (rectangle w h) T -> forall i' k', nth_error ms i' = Some k' -> reads g (model_assignment k') T -> i' = i)) /\
    (forall k T, In k ms -> reads g (model_assignment k) T -> apart (rectangle w h) T -> share_wanted w h l n m al partial T).
Proof.
  intros Hnm Hma EI CS D VD. destruct (C42_enumeration dom vs solver cs CS D) as (ms & Ems & H1 & H2 & H3). exists ms. split; [eexists; apply Ems; apply le_n|].
  pose proof (share_area _ _ _ _ _ _ _ _ _ _ Hma) as Ar.
  pose proof (fun a Sa => share_known w h l n m al partial g cs top a Hma Sa) as K.
  destruct (share_split _ _ _ _ _ _ _ _ _ _ Hma) as (Hw & Hh & Hn & Hm & Hl & _ & _ & created & ends & Ec & _).
  assert (Hul : match length_option l with Some l => 0 <= l | None => True end) by (unfold length_option; destruct (Z.eqb_spec l (-1)); [exact Logic.I|lia]).
  destruct (free_grid _ _ _ _ _ _ _ Ec) as (_ & _ & _ & _ & Gg).
  assert (W : wf_grid g) by (destruct Gg as [-> | (M & ->)]; [apply n_to_n_wf|apply n_to_m_wf]; assumption).
  assert (Wr : wrap_x (geo g) = false /\ wrap_y (geo g) = false) by (destruct Gg as [-> | (M & ->)]; split; reflexivity). destruct Wr as [Wx Wy].
  assert (So : forall a, sat a cs = true -> solves g (EBool true) a).
  { intros a Sa. pose proof (K a Sa) as Sol. pose proof Sol as ((created' & Ec' & Sc) & _). destruct (n_to_m_parts _ _ _ _ _ _ _ _ Hul Hnm Ec' Sc) as (M & Fa).
    exact (nm_solves _ _ _ _ _ _ _ _ _ Sol Fa). }
  assert (RD : forall a, sat a cs = true -> exists T, reads g a T).
  { intros a Sa. destruct (C44_decodes g a W) as [_ DC]. destruct (DC (proj1 (So a Sa))) as (T & R & _). eauto. }
  split.
  - intros T HT. destruct (proj2 (C114_exactly w h l n m al partial g cs top T Hnm Hma) HT) as (a & Sa & R & NT).
    destruct (H2 a Sa) as (k & Hk & Sk). destruct (H1 k Hk) as [_ Sat]. destruct (In_nth_error _ _ Hk) as [i Ei]. exists i, k. split; [exact Ei|].
    assert (Rk : reads g (model_assignment k) T).
    { destruct (RD _ Sat) as [T' R']. intros p Hp. rewrite (R' p Hp). f_equal. symmetry.
      apply (C61_layout_determined g (EBool true) a (model_assignment k) T T' [] true vs W Wx Wy EI (So a Sa) (So _ Sat) R R'); [|exact Hp].
      intros v Hv. apply Sk; [apply VD; exact Hv|exact Hv]. }
    split; [exact Rk|]. intros Ap i' k' Ei' R'. rewrite <- Ar in Ap. destruct (Nat.eq_dec i' i) as [|N]; [assumption|exfalso]. apply (H3 i' i k' k Ei' Ei N).
    assert (Sat' : sat (model_assignment k') cs = true) by (apply (H1 k'); eapply nth_error_In; exact Ei').
    assert (Si : forall a, sat a cs = true -> reads g a T -> forall p d, inside (garea g) p ->
      (vi (view_of a (tile_at g p)) d = true <-> gets (garea g) T p d) /\ (vo (view_of a (tile_at g p)) d = true <-> gives (garea g) T p d)).
    { intros b Sb Rb p d Hp. pose proof (K b Sb) as Sol. pose proof Sol as ((created' & Ec' & Sc) & _). destruct (n_to_m_parts _ _ _ _ _ _ _ _ Hul Hnm Ec' Sc) as (M & Fa).
      pose proof (nm_border _ _ _ _ _ _ _ _ _ Sol Fa T Rb) as Bd. pose proof (apart_linked g b T Ap) as NTb.
      split; [exact (linked_gets g W b (So b Sb) T Rb Bd NTb p d Hp)|exact (linked_gives g W b (So b Sb) T Rb Bd NTb p d Hp)]. }
    intros v _ Hv. apply Some_inj in EI. subst vs. cbn [app] in Hv. apply in_flat_map in Hv. destruct Hv as (p & Hp & Hv). apply iterate_tiles_in in Hp.
    assert (Pos : 0 < v).
    { pose proof (tile_base_nonneg g p W Hp). pose proof W as (_ & Ht & _). unfold all_direction, inputs, outputs, directions, tile_at in Hv.
      cbn [tile_vars input_dir output_dir M_Grid.is_splitter map app dir_value In] in Hv. intuition lia. }
    rewrite <- (P_Allocate.evl_pos (model_assignment k') v Pos), <- (P_Allocate.evl_pos (model_assignment k) v Pos).
    assert (GR : forall a, sat a cs = true -> grid_rules g a) by (intros b Sb; apply (solves_init_rules g b W), (So b Sb)).
    apply in_app_or in Hv. destruct Hv as [Hv|[<-|[]]].
    + unfold all_direction, inputs, outputs in Hv. apply in_app_or in Hv.
      destruct Hv as [Hv|Hv]; apply in_map_iff in Hv; destruct Hv as (d & <- & _);
        destruct (Si _ Sat' R' p d Hp) as [I1 O1], (Si _ Sat Rk p d Hp) as [I2 O2]; cbn [view_of vi vo] in I1, O1, I2, O2; apply Bool.eq_iff_eq_true; tauto.
    + destruct (T_shows g _ T R' (GR _ Sat') p Hp) as (_ & _ & _ & X1 & _), (T_shows g _ T Rk (GR _ Sat) p Hp) as (_ & _ & _ & X2 & _).
      unfold view_of in X1, X2; cbn [P_Grid.vs] in X1, X2. rewrite X1, X2. reflexivity.
  - intros k T Hk R Ap. apply (C114_apart w h l n m al partial g cs top T Hnm Hma Ap). exists (model_assignment k). split; [apply (H1 k Hk)|exact R].
Qed.

(** ** A 2 to 4 balancer *)
(** A splitter, and behind each of its outputs another one. *)
Definition spread : layout := fun p => match p with
  | (0, 1) | (0, 2) | (2, 1) | (2, 2) | (4, _) => Belt RIGHT RIGHT
  | (1, 1) | (3, 0) | (3, 2) => Splitter RIGHT false | (1, 2) | (3, 1) | (3, 3) => Splitter RIGHT true | _ => Empty end.
Definition spread_grid : grid := n_to_m_grid 5 4 (Some 4) 2 4 4.
(** The flows in quarters of a belt. *)
Definition spread_from (c : Z) (p : pos) : Z :=
  if fst p <=? 1 then (if snd p mod 2 =? c then 4 else 0) else if fst p =? 4 then 1 else if (snd p =? 1) || (snd p =? 2) then 2 else 0.
Definition spread_to (c : Z) (p : pos) : Z :=
  if fst p <=? 1 then 1 else if fst p =? 4 then (if snd p =? c then 2 else 0) else if (snd p =? 1) || (snd p =? 2) then (if snd p / 2 =? c / 2 then 2 else 0) else 0.
Definition spread_table := tabulate spread_grid (share_view 5 4 (Some 4) 2 4 4 spread spread_from spread_to (fun _ => false)).
Definition spread_solution : assignment := of_table spread_table [2202; 2204].
Example C114_spread : exists cs top, net_free_main 5 4 4 2 4 true None = Some (spread_grid, cs, top) /\ sat spread_solution cs = true.
Proof.
  assert (X : match net_free_main 5 4 4 2 4 true None with Some (_, cs, _) => sat spread_solution cs | None => false end = true) by (vm_compute; reflexivity).
  assert (Y : match net_free_main 5 4 4 2 4 true None with Some (g', _, _) => g' = spread_grid | None => False end) by (vm_compute; reflexivity).
  destruct (net_free_main 5 4 4 2 4 true None) as [[[g' cs] top]|] eqn:E; [|discriminate]. subst g'. exists cs, top. auto.
Qed.
Example C114_spread_reads : reads spread_grid spread_solution spread.
Proof. apply reads_by_checking. vm_compute. reflexivity. Qed.
Example C114_spread_apart : apart (rectangle 5 4) spread.
Proof.
  intros [x y] d k q k' [Hx Hy] Tp Nq Tq. cbn in Hx, Hy.
  assert (x = 0 \/ x = 1 \/ x = 2 \/ x = 3 \/ x = 4) as [-> | [-> | [-> | [-> | ->]]]] by lia; assert (y = 0 \/ y = 1 \/ y = 2 \/ y = 3) as [-> | [-> | [-> | ->]]] by lia;
    cbn in Tp; inversion Tp; subst; vm_compute in Nq; injection Nq as <-; vm_compute in Tq; discriminate.
Qed.
Example C114_spread_form : (exists i j, open_sides 5 4 4 2 4 spread i j /\ j <= i <= j + 2 /\ exists F B, measured_twice 5 4 4 2 4 spread i j F B) /\
  asked (free_options 4 None) (rectangle 5 4) 0 0 spread /\ shares_equally (rectangle 5 4) spread 4.
Proof.
  destruct C114_spread as (cs & top & Hma & Sa).
  destruct (proj1 (C114_apart 5 4 4 2 4 true None spread_grid cs top spread ltac:(discriminate) Hma C114_spread_apart) (ex_intro _ spread_solution (conj Sa C114_spread_reads))) as ((i & j & Op & Ali & F & B & Me) & As).
  change (longest 5 4 (length_option 4)) with 4 in Op, Me. specialize (Ali eq_refl). cbn in Ali.
  split; [exists i, j; split; [exact Op|split; [lia|eauto]]|]. split; [exact As|]. apply (C114_form_shares 5 4 4 2 4 spread i j F B); try lia; assumption.
Qed.
(** The units of a belt: for 3 inputs and 4 outputs a belt holds 12, for 5 and 6
    it holds 120. *)
Example C114_units : share_units 2 4 = 4 /\ share_units 3 4 = 12 /\ share_units 5 6 = 120.
Proof. split; [|split]; vm_compute; reflexivity. Qed.
Print Assumptions C114_exactly.
Print Assumptions C114_apart.
Print Assumptions C114_form_shares.
Print Assumptions C114_every_layout.
Print Assumptions C114_spread_form.
