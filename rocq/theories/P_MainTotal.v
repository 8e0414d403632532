(** When main of belt_balancer.py starts the solver and when it raises. *)
From Coq Require Import String ZArith List Bool Lia Permutation.
From Verif Require Import P_Network P_Network2 P_Benes P_Nonneg P_Similar T_Network.
From Verif Require Import Spec_Cnf Spec_Tile Spec_Layout Spec_Pattern Spec_Main M_Json M_Tile M_Util M_Card M_Network Spec_Network M_Template M_Grid M_Oracle M_Balancer M_Optimise M_Main
  P_Cnf P_Util P_Util2 P_Card P_Tile P_Layout P_List P_Template P_Walk P_Grid P_GridSound P_GridComplete P_Transport T_Grid P_GridOk P_Gen P_Balancer
  Spec_Balancer P_Trace P_Realise P_Ends T_Balancer P_Lossless T_Lossless Spec_Edge P_Edge T_Edge P_Main.
From Verif Require P_Pow2Total P_NetTotal P_Cut2 P_Mirror T_Mirror.
Import P_Pow2Total.
Import ListNotations.
Local Open Scope string_scope.
Open Scope Z_scope.

(** The number of cells of one colour of a chessboard. *)
Lemma odd_column x : forall h : nat, Z.of_nat (List.length (filter (fun y => (x + y) mod 2 =? 1) (range (Z.of_nat h)))) = (Z.of_nat h + x mod 2) / 2.
Proof.
  induction h as [|h IH]; [cbn [List.length filter range Z.of_nat]; assert (0 <= x mod 2 < 2) by (apply Z.mod_pos_bound; lia); rewrite Z.div_small by lia; reflexivity|].
  assert (R : range (Z.of_nat (S h)) = (range (Z.of_nat h) ++ [Z.of_nat h])%list) by (unfold range; rewrite !Nat2Z.id, seq_S, map_app; reflexivity).
  rewrite R, filter_app, app_length, Nat2Z.inj_add, IH. cbn [filter].
  pose proof (Z.div_mod x 2 ltac:(lia)). pose proof (Z.mod_pos_bound x 2 ltac:(lia)). pose proof (Z.div_mod (x + Z.of_nat h) 2 ltac:(lia)). pose proof (Z.mod_pos_bound (x + Z.of_nat h) 2 ltac:(lia)).
  pose proof (Z.div_mod (Z.of_nat h + x mod 2) 2 ltac:(lia)). pose proof (Z.mod_pos_bound (Z.of_nat h + x mod 2) 2 ltac:(lia)).
  pose proof (Z.div_mod (Z.of_nat (S h) + x mod 2) 2 ltac:(lia)). pose proof (Z.mod_pos_bound (Z.of_nat (S h) + x mod 2) 2 ltac:(lia)).
  destruct (Z.eqb_spec ((x + Z.of_nat h) mod 2) 1); cbn [List.length]; lia.
Qed.
Definition odd_cells (w h : Z) : list (Z * Z) := filter (fun p => (fst p + snd p) mod 2 =? 1) (cells w h).
Lemma odd_cells_length h : 0 <= h -> forall w : nat, Z.of_nat (List.length (odd_cells (Z.of_nat w) h)) = Z.of_nat w * h / 2.
Proof.
  intros Hh. induction w as [|w IH]; [reflexivity|]. unfold odd_cells, cells in *.
  assert (R : range (Z.of_nat (S w)) = (range (Z.of_nat w) ++ [Z.of_nat w])%list) by (unfold range; rewrite !Nat2Z.id, seq_S, map_app; reflexivity).
  rewrite R, flat_map_app, filter_app, app_length, Nat2Z.inj_add, IH. cbn [flat_map]. rewrite app_nil_r.
  assert (F : forall l, List.length (filter (fun p => (fst p + snd p) mod 2 =? 1) (map (fun y => (Z.of_nat w, y)) l)) = List.length (filter (fun y => (Z.of_nat w + y) mod 2 =? 1) l)).
  { induction l as [|y l IHl]; [reflexivity|]. cbn [map filter fst snd]. destruct (_ =? 1); cbn [List.length]; rewrite IHl; reflexivity. }
  rewrite F. pose proof (odd_column (Z.of_nat w) (Z.to_nat h)) as C. rewrite (Z2Nat.id h Hh) in C. rewrite C.
  pose proof (Z.div_mod (Z.of_nat w) 2 ltac:(lia)) as D. pose proof (Z.mod_pos_bound (Z.of_nat w) 2 ltac:(lia)) as M. set (q := Z.of_nat w / 2) in *. set (r := Z.of_nat w mod 2) in *.
  assert (E1 : Z.of_nat w * h = r * h + q * h * 2) by (rewrite D at 1; ring). assert (E2 : Z.of_nat (S w) * h = (h + r * h) + q * h * 2) by (rewrite Nat2Z.inj_succ; unfold Z.succ; rewrite Z.mul_add_distr_r, E1; ring).
  rewrite E1, E2, !Z.div_add by lia. clearbody q. assert (Hr : r = 0 \/ r = 1) by lia. destruct Hr as [-> | ->].
  - rewrite Z.mul_0_l, !Z.add_0_r. change (0 / 2) with 0. lia.
  - rewrite Z.mul_1_l. pose proof (Z.div_mod h 2 ltac:(lia)). pose proof (Z.mod_pos_bound h 2 ltac:(lia)). pose proof (Z.div_mod (h + 1) 2 ltac:(lia)). pose proof (Z.mod_pos_bound (h + 1) 2 ltac:(lia)).
    replace (h + h) with (h * 2) by ring. rewrite Z.div_mul by lia. lia.
Qed.
Lemma range_length h : 0 <= h -> Z.of_nat (List.length (range h)) = h.
Proof. intros H. unfold range. rewrite map_length, seq_length. lia. Qed.
Lemma cells_length w h : 0 <= w -> 0 <= h -> Z.of_nat (List.length (cells w h)) = w * h.
Proof.
  intros Hw Hh. unfold cells. assert (X : forall l, List.length (flat_map (fun x : Z => map (fun y : Z => (x, y)) (range h)) l) = (List.length l * List.length (range h))%nat).
  { induction l as [|x l IH]; [reflexivity|]. cbn [flat_map List.length]. rewrite app_length, map_length, IH. reflexivity. }
  rewrite X, Nat2Z.inj_mul, !range_length by lia. reflexivity.
Qed.

(** The numbers of the colours of the network fit the grid's colours. *)
Section Fits.
  Variables (net : counter) (w h : Z) (ul : option Z) (t : Z).
  Hypothesis Hw : 0 < w.
  Hypothesis Hh : 0 < h.
  Hypothesis Hul : match ul with Some l => 0 <= l | None => True end.
  Hypothesis Nn : nonneg_colours net.
  Hypothesis Et : list_max (all_colours net) = Some t.
  Let g := balancer_grid net w h ul t.
  Lemma top_nonneg : 0 <= t.
  Proof. destruct (list_max_spec _ _ Et) as [H _]. apply all_colours_in in H. destruct H as (nd & k & H1 & H2). exact (Nn nd k t H1 H2). Qed.
  Lemma g_wf : wf_grid g.
  Proof. apply balancer_grid_wf; auto. apply top_nonneg. Qed.
  Lemma fits c : In c (all_colours net) -> 0 <= c < 2 ^ Z.of_nat (colour_bits g).
  Proof.
    intros H. pose proof (proj2 (list_max_spec _ _ Et) c H). apply all_colours_in in H. destruct H as (nd & k & H1 & H2). pose proof (Nn nd k c H1 H2).
    pose proof (colour_fits (t + 1) ltac:(pose proof top_nonneg; lia)) as F. unfold colour_bits, g. cbn [balancer_grid gcolours]. lia.
  Qed.
  Lemma fits_top c : 0 <= c <= t -> c < 2 ^ Z.of_nat (colour_bits g).
  Proof. intros H. pose proof (colour_fits (t + 1) ltac:(lia)) as F. unfold colour_bits, g. cbn [balancer_grid gcolours]. lia. Qed.
  Lemma prevent_colour_some c : 0 <= c <= t -> exists cs, prevent_colour g c = Some cs.
  Proof.
    intros Hc. pose proof (fits_top c Hc) as F. unfold prevent_colour. apply oflat_some. intros p Hp. pose proof (colour_len g p) as (L1 & L2 & L3).
    assert (X : forall ls, len ls = Z.of_nat (colour_bits g) -> exists k, set_not_number c ls = Some k) by (intros ls El; apply set_not_number_some; rewrite El; exact F).
    destruct (Z.eqb_spec c 0) as [->|_].
    - destruct (X _ L1) as [k ->]. cbn [obind]. eauto.
    - cbn [omap]. destruct (X _ L1) as [k1 ->], (X _ L2) as [k2 ->], (X _ L3) as [k3 ->]. cbn [obind]. eauto.
  Qed.
  Lemma number_some c p : In c (all_colours net) -> exists cs, set_number c (colour (tile_at g p)) = Some cs.
  Proof. intros H. apply set_number_some. rewrite (proj1 (colour_len g p)). apply fits. exact H. Qed.
  Lemma numbers_some c c' p p' : In c (all_colours net) -> In c' (all_colours net) -> exists cs, set_numbers c c' (colour (tile_at g p)) (colour (tile_at g p')) = Some cs.
  Proof.
    intros H H'. apply set_numbers_some. pose proof (proj1 (colour_len g p)) as L. pose proof (proj1 (colour_len g p')) as L'. split; [unfold len in *; lia|]. rewrite L. split; apply fits; assumption.
  Qed.
  Definition side_known (s : side) : Prop := forall c, In (Some c) (side_list s) -> In c (all_colours net).
  Lemma side_some pre s la lb p p' : side_known s -> s <> (None, None) -> exists cs, side_clauses pre s la lb (colour (tile_at g p)) (colour (tile_at g p')) = Some cs.
  Proof.
    destruct s as [[x|] [y|]]; intros K N; cbn [side_clauses].
    - destruct (numbers_some x y p p') as [k ->]; [apply K; cbn; auto|apply K; cbn; auto|]. cbn [obind]. eauto.
    - destruct (number_some x p) as [k1 ->]; [apply K; cbn; auto|]. destruct (number_some x p') as [k2 ->]; [apply K; cbn; auto|]. cbn [obind]. eauto.
    - destruct (number_some y p) as [k1 ->]; [apply K; cbn; auto|]. destruct (number_some y p') as [k2 ->]; [apply K; cbn; auto|]. cbn [obind]. eauto.
    - contradiction.
  Qed.
  Lemma nodes_some ic oc i nd k : In (nd, k) net -> (count_missing nd <= 1)%nat -> In ic (all_colours net) -> In oc (all_colours net) -> exists cs, node_clauses g ic oc i nd = Some cs.
  Proof.
    intros Hin Cm Hi Ho. unfold node_clauses. rewrite (proj2 (Nat.leb_le _ _) Cm). cbn [negb]. apply oflat_some. intros p _. unfold M_Balancer.node_at.
    destruct (number_some ic p Hi) as [k1 ->]. destruct (number_some oc p Ho) as [k2 ->]. cbn [obind].
    assert (Am : any_missing (fst nd) && any_missing (snd nd) = false /\ fst nd <> (None, None) /\ snd nd <> (None, None)).
    { destruct nd as [[[x1|] [x2|]] [[x3|] [x4|]]]; cbn in Cm |- *; try lia; repeat split; discriminate. }
    destruct Am as (Am & N1 & N2). rewrite Am.
    assert (Kn : side_known (fst nd) /\ side_known (snd nd)).
    { split; intros c Hc; apply all_colours_in; exists nd, k; (split; [exact Hin|]); unfold splitter_colours; apply in_or_app; auto. }
    destruct (oflat_some (node_direction g i nd p) directions) as [cs ->]; [|cbn [obind]; eauto].
    intros d _. unfold node_direction. rewrite Am.
    destruct (get_tile_instance_offset (geo g) (fst p) (snd p) (dx d) (dy d)) as [p10|]; [|eauto].
    destruct (get_tile_instance_offset (geo g) (fst p) (snd p) (dx (next d)) (dy (next d))) as [p01|]; [|eauto].
    destruct (get_tile_instance_offset (geo g) (fst p) (snd p) (dx d + dx (next d)) (dy d + dy (next d))) as [p11|]; [|eauto].
    match goal with |- context [side_clauses ?pre _ _ _ _ _] => set (pr := pre) end.
    destruct (side_some pr (fst nd) (input_dir (tile_at g p) d) (input_dir (tile_at g p01) d) p p01 (proj1 Kn) N1) as [c1 ->]. cbn [obind].
    destruct (side_some pr (snd nd) (output_dir (tile_at g p) d) (output_dir (tile_at g p01) d) p10 p11 (proj2 Kn) N2) as [c2 ->]. cbn [obind]. eauto.
  Qed.

  Variable E : card_encoder.
  Hypothesis Ans : answers E.
  Variables ic n oc m : Z.
  Hypothesis Ends : get_input_output_colours (elements net) = Some ((ic, n), (oc, m)).
  Hypothesis Counts : forall nd k, In (nd, k) net -> 0 <= k <= w * h /\ (count_missing nd <= 1)%nat.
  Hypothesis Room : 1 <= fold_left Z.add (map snd net) 0 <= w * h / 2.
  Hypothesis Nin : n <= w * h.
  Hypothesis Nout : m <= w * h.
  Lemma balancer_some : exists cs top, create_balancer E net w h ul = Some (g, cs, top).
  Proof.
    unfold create_balancer. rewrite (proj2 (Z.ltb_lt 0 w) Hw), (proj2 (Z.ltb_lt 0 h) Hh). cbn [andb negb]. rewrite Et. cbn [obind]. fold g.
    destruct (proj1 (C44_decodes g (fun _ => false) g_wf)) as [init ->]. cbn [obind].
    destruct (ends_colours net ic n oc m Ends) as [Ic Oc]. pose proof (proj1 (ends_spec _ _ _ _ _) Ends) as He. destruct He as ((Hn & Hm) & _).
    pose proof (cells_length w h ltac:(lia) ltac:(lia)) as Lc. assert (Nc : 0 < w * h) by nia.
    assert (Cn : forall (F : Z * Z -> lit), map F (cells w h) <> []) by (intros F X; apply (f_equal (@List.length _)) in X; rewrite map_length in X; cbn in X; lia).
    unfold balancer_clauses. change (width (geo g)) with w. change (height (geo g)) with h.
    match goal with |- context [seq_gen ?l (grid_top g)] => assert (X : always (seq_gen l)); [|destruct (X (grid_top g)) as (before & top1 & ->); cbn [obind]] end.
    { apply always_seq. intros f Hf. apply in_app_or in Hf. destruct Hf as [Hf|Hf]; [|apply in_app_or in Hf; destruct Hf as [Hf|[<-|[]]]].
      - destruct Hf as [<-|[<-|[<-|[<-|[<-|[]]]]]]; [apply always_pure..|].
        + apply oflat_some. intros c Hc. apply range_in in Hc. destruct (mem c (all_colours net)); [eauto|apply prevent_colour_some; lia].
        + eauto.
        + eauto.
        + apply (colouring_some g g_wf).
        + intros top. apply Ans.
          * intros X. apply (f_equal (@List.length _)) in X. rewrite map_length in X. cbn in X. pose proof (odd_cells_length h ltac:(lia) (Z.to_nat w)) as L. rewrite Z2Nat.id in L by lia. unfold odd_cells in L. lia.
          * rewrite map_length. pose proof (odd_cells_length h ltac:(lia) (Z.to_nat w)) as L. rewrite Z2Nat.id in L by lia. unfold odd_cells in L. rewrite L. lia.
      - apply in_map_iff in Hf. destruct Hf as ([i [nd k]] & <- & Hi). apply indexed_in, nth_error_In in Hi. cbn [fst snd]. intros top. apply Ans; [apply Cn|]. rewrite map_length, Lc. apply (Counts nd k Hi).
      - apply always_pure. eauto. }
    rewrite Ends. cbn [obind].
    match goal with |- context [seq_gen ?l top1] => assert (X2 : always (seq_gen l)); [|destruct (X2 top1) as (after & top2 & ->); cbn [obind]; eauto] end.
    apply always_seq. intros f [<-|[<-|[<-|[]]]].
    - intros top. apply Ans; [apply Cn|]. rewrite map_length, Lc. lia.
    - intros top. apply Ans; [apply Cn|]. rewrite map_length, Lc. lia.
    - apply always_pure, oflat_some. intros [i [nd k]] Hi. apply indexed_in, nth_error_In in Hi. cbn [fst snd]. apply (nodes_some ic oc i nd k Hi); [apply (Counts nd k Hi)|exact Ic|exact Oc].
  Qed.

  (** The splitters at the edges. *)
  Hypothesis AnsL : P_Cut2.answers_atleast E.
  Hypothesis Fewer : forall nd k, In (nd, k) net -> k <= h.
  Lemma edge_some x bound rec : 0 <= x < w -> 0 <= rec -> incl (map snd bound) net -> always (edge_splitters E g x bound rec).
  Proof.
    intros Hx Hr Inc top. unfold edge_splitters. change (height (geo g)) with h.
    assert (Gu : in_grid g x 0 = true) by (unfold in_grid; cbn [geo g balancer_grid width height]; rewrite !andb_true_iff, !Z.leb_le, !Z.ltb_lt; lia). rewrite Gu.
    assert (Hn : forall i (F : Z -> lit), map F (range h) <> [] /\ Z.of_nat (List.length (map F (range h))) = h * i - h * (i - 1)).
    { intros i F. rewrite map_length, range_length by lia. split; [|ring]. intros X. apply (f_equal (@List.length _)) in X. rewrite map_length in X. cbn in X. pose proof (range_length h ltac:(lia)). lia. }
    destruct (rec =? 0).
    - destruct bound as [|b0 bound']; [cbn; eauto|]. set (bd := b0 :: bound') in *. apply always_seq. intros f Hf. apply in_flat_map in Hf. destruct Hf as ([i [nd k]] & Hi & Hf). cbn [fst snd] in Hf.
      assert (Hk : In (nd, k) net) by (apply Inc; apply in_map_iff; exists (i, (nd, k)); auto). destruct Hf as [<-|[<-|[]]]; [|apply always_pure; eauto].
      intros tp. destruct (Hn 1 (fun y => node g (x, y) i)) as [N1 N2]. apply Ans; [exact N1|]. rewrite N2. pose proof (proj1 (Counts nd k Hk)). pose proof (Fewer nd k Hk). lia.
    - set (least := fold_left Z.add _ 0 - rec). destruct (Z.ltb_spec 0 least) as [Hl|Hl]; [|cbn; eauto]. apply AnsL. split; [lia|].
      assert (Le : forall b z, incl (map snd b) net -> fold_left Z.add (map (fun ie : nat * (splitter * Z) => snd (snd ie)) b) z <= z + h * Z.of_nat (List.length b)).
      { induction b as [|[i [nd k]] b IH]; intros z Ib; [cbn; lia|]. cbn [map fold_left snd List.length]. assert (Hk : In (nd, k) net) by (apply Ib; left; reflexivity). pose proof (Fewer nd k Hk).
        specialize (IH (z + k) (fun y Hy => Ib y (or_intror Hy))). lia. }
      assert (Ll : forall r b, Z.of_nat (List.length (flat_map (fun y => map (fun ie : nat * (splitter * Z) => node g (x, y) (fst ie)) b) r)) = Z.of_nat (List.length r) * Z.of_nat (List.length b)).
      { intros r b. induction r as [|y r IH]; [reflexivity|]. cbn [flat_map List.length]. rewrite app_length, map_length, !Nat2Z.inj_add, IH, Nat2Z.inj_succ. ring. }
      rewrite Ll, range_length by lia. specialize (Le bound 0 Inc). unfold least. lia.
  Qed.
  Lemma enforce_edge_some : 2 <= w -> always (enforce_edge_splitters E g net).
  Proof.
    intros H2 top. unfold enforce_edge_splitters. rewrite Ends. cbn [obind]. change (width (geo g)) with w.
    match goal with |- exists cs top', seq_gen ?l _ = _ => assert (X : always (seq_gen l)); [|apply X] end.
    assert (I : forall q, incl (map snd (filter q (indexed net))) net).
    { intros q y Hy. apply in_map_iff in Hy. destruct Hy as ([i y'] & <- & Hy). apply filter_In in Hy. destruct Hy as [Hy _]. apply indexed_in, nth_error_In in Hy. exact Hy. }
    apply always_seq. intros f [<-|[<-|[]]]; apply edge_some; try lia; try apply I; unfold recirculate; lia.
  Qed.
End Fits.

Lemma ends_call_some o g net ic n oc m : wf_grid g -> get_input_output_colours (elements net) = Some ((ic, n), (oc, m)) ->
  (always (ends_call o g net) <-> ends_fit o (width (geo g)) (height (geo g)) n m) /\
  (forall top, ends_call o g net top <> None <-> ends_fit o (width (geo g)) (height (geo g)) n m).
Proof.
  intros ((Ww & Wh) & _) Ee.
  assert (K : forall top, (exists cs top', ends_call o g net top = Some (cs, top')) <-> ends_fit o (width (geo g)) (height (geo g)) n m).
  { assert (L : forall x, len (column g x) = height (geo g)) by (intros x; unfold column, len; rewrite map_length, range_length by lia; reflexivity).
    assert (L' : forall y, len (row g y) = width (geo g)) by (intros y; unfold row, len; rewrite map_length, range_length by lia; reflexivity).
    intros top. unfold ends_call, ends_fit, setup_balancer_ends_90, setup_balancer_ends_180, setup_balancer_ends. rewrite Ee. cbn [obind]. unfold setup_balancer_input, setup_balancer_output, setup_balancer_end. rewrite !L, !L'.
    destruct (o_90 o); [|destruct (o_180 o); [|destruct (o_custom o)]].
    - destruct (Z.leb_spec n (height (geo g))); cbn [negb obind]; [|split; [intros (? & ? & X); discriminate|lia]]. destruct (Z.leb_spec m (width (geo g))); cbn [negb obind]; [split; eauto|split; [intros (? & ? & X); discriminate|lia]].
    - destruct (Z.leb_spec n (height (geo g))); cbn [negb obind]; [|split; [intros (? & ? & X); discriminate|lia]]. destruct (Z.leb_spec m (height (geo g))); cbn [negb obind]; [split; eauto|split; [intros (? & ? & X); discriminate|lia]].
    - split; [auto|]. intros _. eexists _, _. reflexivity.
    - destruct (Z.leb_spec n (height (geo g))); cbn [negb obind]; [|split; [intros (? & ? & X); discriminate|lia]]. destruct (Z.leb_spec m (height (geo g))); cbn [negb obind]; [split; eauto|split; [intros (? & ? & X); discriminate|lia]]. }
  split; [split; [intros H; apply (K 0), H|intros H top; apply K; exact H]|].
  intros top. rewrite <- (K top). destruct (ends_call o g net top) as [[cs t]|]; [split; [eauto|discriminate]|]. split; [contradiction|intros (? & ? & X); discriminate].
Qed.
Lemma partial_some g G : wf_grid g -> (set_nonempty_tiles g G <> None <-> placeable (width (geo g)) (height (geo g)) G).
Proof.
  intros W. pose proof (partial_raises g G W) as P. split.
  - intros N x y r t Hr Ht Ne. assert (X : ~ exists x y r t, nth_error G y = Some r /\ nth_error r x = Some t /\ t <> Empty /\
      (~ inside (garea g) (Z.of_nat x, Z.of_nat y) \/ match t with Inserter _ _ | Assembler _ _ => True | _ => False end)) by (intros X; apply N, P, X).
    assert (I : inside (garea g) (Z.of_nat x, Z.of_nat y)).
    { destruct (Z_lt_le_dec (Z.of_nat x) (width (geo g))) as [A1|A1], (Z_lt_le_dec (Z.of_nat y) (height (geo g))) as [A2|A2]; try (split; cbn [garea area_of aw ah fst snd]; lia);
        exfalso; apply X; exists x, y, r, t; (repeat split; auto); left; intros [Q1 Q2]; cbn [garea area_of aw ah fst snd] in Q1, Q2; lia. }
    destruct I as [I1 I2]. cbn [garea area_of aw ah fst snd] in I1, I2. split; [lia|]. split; [lia|]. destruct t; auto; apply X; exists x, y, r; eexists; (repeat split; [exact Hr|exact Ht|exact Ne|]); right; exact Logic.I.
  - intros Pl N. apply P in N. destruct N as (x & y & r & t & Hr & Ht & Ne & N). destruct (Pl x y r t Hr Ht Ne) as (H1 & H2 & H3). destruct N as [N|N].
    + apply N. split; cbn [garea area_of aw ah fst snd]; lia.
    + destruct t; contradiction.
Qed.

Lemma pures_some os l : (forall o, In o os -> exists c : cnf, o = Some c) -> always (seq_gen l) -> always (seq_gen (map pure os ++ l)%list).
Proof.
  intros H Hl. induction os as [|o os IH]; [exact Hl|]. cbn [map app]. intros top. rewrite seq_gen_cons. destruct (H o (or_introl eq_refl)) as [c ->]. unfold pure at 1. cbn [obind].
  destruct (IH (fun x Hx => H x (or_intror Hx)) top) as (cs & t & ->). eauto.
Qed.
Lemma when_some b f l : (b = true -> always f) -> always (seq_gen l) -> always (seq_gen (when_ b [f] ++ l)%list).
Proof.
  intros H Hl. destruct b; cbn [when_ app]; [|exact Hl]. intros top. rewrite seq_gen_cons. destruct (H eq_refl top) as (c & t & ->). destruct (Hl t) as (cs & t' & ->). eauto.
Qed.
(** break_vertical_symmetry needs the pool to be past the grid. *)
Definition from_ (v : Z) (f : gen) : Prop := forall top, v <= top -> exists cs top', f top = Some (cs, top') /\ top <= top'.

Lemma wishes_some o g : wf_grid g -> glen g = main_length o -> o_length o = -1 \/ 1 <= o_length o ->
  (o_edge_belts o = true -> width (geo g) = 1 -> height (geo g) = 1) ->
  match o_partial o with Some G => placeable (width (geo g)) (height (geo g)) G | None => True end ->
  forall x, In x (wishes o g) -> exists c, x = Some c.
Proof.
  intros W Gl Hl Eb Pa x Hx. unfold wishes, wishes1, wishes2, wishes3, whenp in Hx. pose proof W as ((Ww & Wh) & _).
  rewrite !in_app_iff in Hx. destruct Hx as [[<-|[]]|[[Hx|[Hx|[Hx|Hx]]]|[Hx|[Hx|Hx]]]].
  - eauto.
  - destruct (o_edge_belts o); [|destruct Hx]. destruct Hx as [<-|[]]. pose proof (C78_raises g W) as R. destruct (prevent_double_edge_belts g); [eauto|]. destruct (proj1 R eq_refl) as [R1 R2]. specialize (Eb eq_refl R1). lia.
  - destruct (o_glue o || o_fast o); [|destruct Hx]. destruct Hx as [<-|[<-|[]]]; eauto.
  - destruct (o_expand o || o_fast o); [|destruct Hx]. destruct Hx as [<-|[]]. apply (P_NetTotal.expand_total g W); cbn [upper]; lia.
  - destruct (o_mergeable o || o_fast o); [|destruct Hx]. destruct Hx as [<-|[]]; eauto.
  - destruct (o_patterns o || o_fast o); [|destruct Hx]. destruct Hx as [<-|[<-|[<-|[<-|[<-|[<-|[]]]]]]]; eauto.
  - destruct Hx as [<-|[<-|[]]]; [|eauto]. unfold enforce_maximum_underground_length. rewrite Gl. unfold main_length. destruct (Z.eqb_spec (o_length o) (-1)); [eauto|]. destruct (Z.leb_spec 1 (o_length o)); [cbn [negb]; eauto|lia].
  - destruct (o_partial o) as [G|]; [|destruct Hx]. destruct Hx as [<-|[]]. apply (partial_some g G W) in Pa. destruct (set_nonempty_tiles g G); [eauto|contradiction].
Qed.
Lemma seq_fits v (l : list gen) : (forall f, In f l -> from_ v f) -> from_ v (seq_gen l).
Proof.
  induction l as [|f l IH]; intros H top Ht; [exists [], top; split; [reflexivity|lia]|]. rewrite seq_gen_cons. destruct (H f (or_introl eq_refl) top Ht) as (c & t & -> & L1).
  destruct (IH (fun x Hx => H x (or_intror Hx)) t ltac:(lia)) as (c2 & t2 & -> & L2). eexists _, _. split; [reflexivity|lia].
Qed.
Lemma from_pure v o : (exists c : cnf, o = Some c) -> from_ v (pure o).
Proof. intros [c ->] top Ht. exists c, top. split; [reflexivity|lia]. Qed.

Lemma dedup_counts net nd k : In (nd, k) (deduplicate_network net) -> 0 <= k <= Z.of_nat (List.length net) /\ (exists nd0, In nd0 net /\ same_node nd0 nd).
Proof.
  intros Hin. destruct (C29_deduplicate net) as (_ & _ & H & _). destruct (H nd k Hin) as [X (cp & ot & Pm & <- & _)]. split; [|exact X]. apply Permutation_length in Pm. rewrite app_length in Pm. lia.
Qed.
Lemma missing_same nd nd' : same_node nd nd' -> count_missing nd = count_missing nd'.
Proof.
  destruct nd as [[a b] [c d]], nd' as [[a' b'] [c' d']]. unfold same_node, same_belts. cbn [fst snd]. intros [[E1|E1] [E2|E2]];
    inversion E1; inversion E2; subst; clear; repeat match goal with x : M_Network.colour |- _ => destruct x end; reflexivity.
Qed.
Lemma dedup_total net : fold_left Z.add (map snd (deduplicate_network net)) 0 = Z.of_nat (List.length net).
Proof.
  rewrite <- elements_length by (intros nd k H; apply (dedup_counts net nd k H)). f_equal.
  rewrite (Permutation_length (deduplicate_elements net)). apply map_length.
Qed.

Lemma refused_iff o : refused o = false <-> ~ contradictory o.
Proof.
  unfold refused, contradictory, flags, len. destruct o as [b1 b2 b3 b4 b5 b6 b7 b8 b9 b10 b11 b12 b13 l p]. cbn [o_90 o_180 o_custom o_aligned o_edge_splitters o_edge_belts o_symmetry].
  destruct b1, b2, b3, b4, b6, b7, b12; cbn; intuition congruence.
Qed.
Lemma same_alike nd nd' : same_node nd nd' -> alike nd nd'.
Proof.
  destruct nd as [[a b] [c d]], nd' as [[a' b'] [c' d']]. unfold same_node, same_belts, alike. cbn [fst snd]. intros [[E1|E1] [E2|E2]]; inversion E1; inversion E2; subst; auto.
Qed.
(** The copies of a splitter are at different places of the list. *)
Lemma places {X} (cp : list X) : forall (l ot : list X), Permutation (cp ++ ot)%list l ->
  exists same, NoDup same /\ List.length same = List.length cp /\ forall i, In i same -> exists x, nth_error l i = Some x /\ In x cp.
Proof.
  intros l ot Pm. destruct (proj1 (Permutation_nth_error _ _) (Permutation_sym Pm)) as (Len & f & Inj & Hf).
  exists (map f (seq 0 (List.length cp))). split; [|split].
  - apply FinFun.Injective_map_NoDup; [exact Inj|apply seq_NoDup].
  - rewrite map_length, seq_length. reflexivity.
  - intros i Hi. apply in_map_iff in Hi. destruct Hi as (k & <- & Hk). apply in_seq in Hk. rewrite <- Hf, nth_error_app1 by lia.
    destruct (nth_error cp k) as [x|] eqn:Ex; [|apply nth_error_None in Ex; lia]. exists x. split; [reflexivity|]. eapply nth_error_In; exact Ex.
Qed.
Lemma dedup_room net h : (forall nd same, (forall i, In i same -> exists nd', nth_error net i = Some nd' /\ alike nd' nd) -> NoDup same -> Z.of_nat (List.length same) <= h) ->
  forall nd k, In (nd, k) (deduplicate_network net) -> k <= h.
Proof.
  intros H nd k Hin. destruct (C29_deduplicate net) as (_ & _ & D & _). destruct (D nd k Hin) as [_ (cp & ot & Pm & <- & Al & _)]. destruct (places cp net ot Pm) as (same & N & L & Hs).
  rewrite <- L. apply (H nd same); [|exact N]. intros i Hi. destruct (Hs i Hi) as (x & Ex & Ix). exists x. split; [exact Ex|]. apply same_alike. rewrite Forall_forall in Al. apply Al. exact Ix.
Qed.

(** The other direction: what the options need is needed. *)
Theorem main_needs E o net w h g cs top : honest E -> nonneg net -> main_clauses E o net w h = Some (g, cs, top) ->
  exists ic n oc m, get_input_output_colours net = Some ((ic, n), (oc, m)) /\ can_start o net w h n m.
Proof.
  intros HE Hn Hm. destruct (main_split E o net w h g cs top Hm) as (Rf & cs0 & top0 & ce & t1 & cb & t2 & cn & C & Ee & Eb & En & Sm & _).
  destruct (Sm (enforce_maximum_underground_length g)) as (lc & El). { unfold wishes, wishes3. rewrite !in_app_iff. right. right. right. left. left. reflexivity. }
  assert (Eg : exists t, g = balancer_grid (deduplicate_network net) w h (main_length o) t /\ list_max (all_colours (deduplicate_network net)) = Some t).
  { unfold create_balancer in C. destruct (negb _); [discriminate|]. destruct (list_max (all_colours (deduplicate_network net))) as [t|]; [|discriminate]. cbn [obind] in C. exists t. split; [|reflexivity].
    destruct (init_clauses _); [|discriminate]. cbn [obind] in C. destruct (balancer_clauses _ _ _ _ _) as [[c t']|]; [|discriminate]. cbn [obind] in C. congruence. }
  destruct Eg as (t & Eg & Et).
  assert (Hl : o_length o = -1 \/ 1 <= o_length o).
  { unfold enforce_maximum_underground_length in El. rewrite Eg in El. cbn [balancer_grid glen] in El. unfold main_length in El. destruct (Z.eqb_spec (o_length o) (-1)); [auto|]. destruct (Z.leb_spec 1 (o_length o)); [auto|discriminate]. }
  assert (Hul0 : match main_length o with Some l => 0 <= l | None => True end) by (unfold main_length; destruct (Z.eqb_spec (o_length o) (-1)); [exact Logic.I|lia]).
  destruct (create_balancer_spec E _ w h (main_length o) g cs0 top0 HE (dedup_nonneg net Hn) Hul0 C) as (ic & n & oc & m & Ends' & W & _).
  pose proof Ends' as Ends. rewrite deduplicate_ends in Ends. exists ic, n, oc, m. split; [exact Ends|].
  assert (Ew : width (geo g) = w /\ height (geo g) = h) by (rewrite Eg; split; reflexivity). destruct Ew as [Ew Eh]. pose proof W as ((Ww & Wh) & _). rewrite Ew in Ww. rewrite Eh in Wh.
  constructor.
  - apply refused_iff. exact Rf.
  - exact Hl.
  - lia.
  - intros nd Hin. destruct (C29_deduplicate net) as (_ & Dx & _). destruct (Dx nd Hin) as (s & k & Hs & Sn). change (belts_missing nd) with (count_missing nd). rewrite (missing_same _ _ Sn).
    unfold create_balancer in C. destruct (negb _); [discriminate|]. rewrite Et in C. cbn [obind] in C. destruct (init_clauses _); [|discriminate]. cbn [obind] in C.
    destruct (balancer_clauses _ _ _ _ _) as [[c t']|] eqn:Bc; [|discriminate]. unfold balancer_clauses in Bc.
    destruct (seq_gen _ _) as [[before tb]|] in Bc; [|discriminate]. cbn [obind] in Bc. rewrite Ends' in Bc. cbn [obind] in Bc.
    match type of Bc with obind (seq_gen ?l tb) _ = _ => destruct (seq_gen l tb) as [r|] eqn:Sg; [|discriminate] end.
    destruct (seq_gen_pure _ _ _ (oflat (fun ie => node_clauses (balancer_grid (deduplicate_network net) w h (main_length o) t) ic oc (fst ie) (fst (snd ie))) (indexed (deduplicate_network net))) Sg) as (nc & Enc).
    { right. right. left. reflexivity. }
    apply In_nth_error in Hs. destruct Hs as [i Hi]. apply indexed_in in Hi. destruct (oflat_each _ _ _ Enc _ Hi) as (k' & Ek). cbn [fst snd] in Ek. unfold node_clauses in Ek.
    destruct (Nat.leb_spec (count_missing s) 1); [assumption|discriminate].
  - rewrite <- Ew, <- Eh. apply (proj2 (ends_call_some o g _ ic n oc m W Ends') t2). rewrite En. discriminate.
  - intros Eo H1. destruct (Sm (prevent_double_edge_belts g)) as (c & Ec). { unfold wishes, wishes2. rewrite Eo, !in_app_iff. right. left. left. left. reflexivity. }
    pose proof (C78_raises g W) as R. rewrite Ec, Ew, Eh in R. destruct (Z.eq_dec h 1) as [|N]; [assumption|]. exfalso. assert (X : Some c = None) by (apply R; lia). discriminate.
  - intros Eo. unfold mirror_call in Eb. rewrite Eo in Eb. destruct (Z.eq_dec h 1) as [->|N]; [|lia]. rewrite (T_Mirror.C55_one_row_raises g t1 W Eh) in Eb. discriminate.
  - destruct (o_partial o) as [G|] eqn:Eo; [|exact Logic.I]. rewrite <- Ew, <- Eh. apply (partial_some g G W). destruct (Sm (set_nonempty_tiles g G)) as (c & Ec). { unfold wishes, wishes3. rewrite Eo, !in_app_iff. right. right. right. right. left. reflexivity. }
    rewrite Ec. discriminate.
Qed.
Theorem main_starts E o net w h ic n oc m : honest E -> answers E -> P_Cut2.answers_atleast E -> nonneg net ->
  get_input_output_colours net = Some ((ic, n), (oc, m)) -> can_start o net w h n m -> has_room o net w h n m ->
  exists g cs top, main_clauses E o net w h = Some (g, cs, top).
Proof.
  intros HE An AnL Hn Ends [C1 C2 [C3 C3'] C4 C5 C6 C7 C8] [R1 [R2 R2'] R3]. unfold main_clauses. rewrite (proj2 (refused_iff o) C1).
  set (net' := deduplicate_network net). assert (Ends' : get_input_output_colours (elements net') = Some ((ic, n), (oc, m))) by (unfold net'; rewrite deduplicate_ends; exact Ends).
  assert (Nn : nonneg_colours net') by (apply dedup_nonneg; exact Hn).
  assert (Hul0 : match main_length o with Some l => 0 <= l | None => True end) by (unfold main_length; destruct (Z.eqb_spec (o_length o) (-1)); [exact Logic.I|lia]).
  assert (Et : exists t, list_max (all_colours net') = Some t).
  { destruct (ends_colours net' ic n oc m Ends') as [X _]. destruct (all_colours net'); [destruct X|cbn; eauto]. } destruct Et as [t Et].
  assert (Ne : (1 <= List.length net)%nat). { pose proof (ends_nonempty _ _ _ _ _ Ends). destruct net; [contradiction|cbn; lia]. }
  assert (Cts : forall nd k, In (nd, k) net' -> 0 <= k <= w * h /\ (count_missing nd <= 1)%nat).
  { intros nd k Hin. destruct (dedup_counts net nd k Hin) as [X (nd0 & I0 & S0)]. split; [lia|]. rewrite <- (missing_same _ _ S0). apply C4. exact I0. }
  assert (Rm : 1 <= fold_left Z.add (map snd net') 0 <= w * h / 2) by (unfold net'; rewrite dedup_total; split; [lia|apply Z.div_le_lower_bound; lia]).
  destruct (balancer_some net' w h (main_length o) t ltac:(lia) ltac:(lia) Hul0 Nn Et E An ic n oc m Ends' Cts Rm R2 R2') as (cs & top & C). fold net'. rewrite C. cbn [obind].
  set (g := balancer_grid net' w h (main_length o) t) in *.
  assert (W : wf_grid g) by (apply g_wf; auto; lia).
  destruct (create_balancer_spec E net' w h (main_length o) g cs top HE Nn Hul0 C) as (_ & _ & _ & _ & _ & _ & _ & Hs & _).
  pose proof (wishes_some o g W eq_refl C2 C6 C8) as Ws.
  enough (X : from_ (grid_size g) (seq_gen (main_calls E o g net'))). { destruct (X top Hs) as (cs' & top' & -> & _). cbn [obind]. eauto. }
  rewrite calls_eq. apply seq_fits. intros f Hf. rewrite !in_app_iff in Hf.
  assert (Pu : forall l, incl l (wishes o g) -> In f (map pure l) -> from_ (grid_size g) f).
  { intros l Il Hp. apply in_map_iff in Hp. destruct Hp as (x & <- & Hx). apply from_pure, Ws, Il, Hx. }
  destruct Hf as [Hf|[Hf|[Hf|[Hf|[Hf|Hf]]]]].
  - apply (Pu (wishes1 g)); [|exact Hf]. intros x Hx. unfold wishes. apply in_or_app. auto.
  - unfold when_ in Hf. destruct (o_edge_splitters o || o_fast o) eqn:Eo; [|destruct Hf]. destruct Hf as [<-|[]]. destruct (R3 eq_refl) as [W2 Fw0]. pose proof (dedup_room net h Fw0) as Fw. intros tp Ht.
    destruct (enforce_edge_some net' w h (main_length o) t ltac:(lia) ltac:(lia) E An ic n oc m Ends' Cts AnL Fw W2 tp) as (c & t' & Ec). fold g in Ec. exists c, t'. split; [exact Ec|].
    destruct (edge_gen E g net' ic n oc m HE W eq_refl W2 Ends') as [_ Gk]. apply (Gk tp c t' Ht Ec).
  - apply (Pu (wishes2 o g)); [|exact Hf]. intros x Hx. unfold wishes. rewrite !in_app_iff. auto.
  - unfold when_ in Hf. destruct (o_symmetry o); [|destruct Hf]. destruct Hf as [<-|[]]. intros tp Ht. pose proof (T_Mirror.grid_size_nonneg g W) as Gn.
    destruct (P_Mirror.break_vertical_ok g W tp (C7 eq_refl) Ht ltac:(lia)) as (cb & t' & Eb & K1 & _). eauto.
  - apply (Pu (wishes3 o g)); [|exact Hf]. intros x Hx. unfold wishes. rewrite !in_app_iff. auto.
  - assert (Ea : from_ (grid_size g) (ends_call o g net')).
    { intros tp Ht. destruct (proj2 (proj1 (ends_call_some o g net' ic n oc m W Ends')) C5 tp) as (c & t' & Ec). exists c, t'. split; [exact Ec|]. revert Ec. unfold ends_call, setup_balancer_ends_90, setup_balancer_ends_180, setup_balancer_ends. rewrite Ends'. cbn [obind].
      unfold setup_balancer_input, setup_balancer_output, setup_balancer_end. unfold len.
      destruct (o_90 o); [|destruct (o_180 o); [|destruct (o_custom o)]].
      1,2,4: destruct (negb _); cbn [obind]; [discriminate|]; destruct (negb _); cbn [obind]; [discriminate|]; intros X; apply Some_inj in X; injection X as _ <-; lia.
      intros X. unfold pure in X. cbn [obind] in X. apply Some_inj in X. injection X as _ <-. lia. }
    unfold ends_call in Ea. destruct (o_90 o); [destruct Hf as [<-|[]]; exact Ea|]. destruct (o_180 o); [destruct Hf as [<-|[]]; exact Ea|]. destruct (o_custom o); [destruct Hf|destruct Hf as [<-|[]]; exact Ea].
Qed.
