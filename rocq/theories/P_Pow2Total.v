(** belt_balancer_net_free_power_of_2.py builds its clauses without an error for
    every power of two from 2 on. *)
From Coq Require Import String ZArith QArith List Bool Lia Permutation.
From Verif Require Import Spec_Cnf Spec_Tile Spec_Layout Spec_Pattern M_Json M_Tile M_Util M_Card M_Network Spec_Network M_Template M_Grid M_Oracle M_Balancer M_Optimise M_NetFree M_Pow2
  Spec_Balancer Spec_Flow P_Cnf P_Util P_Card P_Tile P_Layout P_List P_Template P_Walk P_Grid P_GridSound P_GridComplete P_Transport T_Grid P_GridOk P_Gen P_Trace P_Uniq P_FlowWitness
  P_NetEnds P_NetShape P_Balancer P_NetFree P_NetTotal P_Pow2 P_Pow2Flow.
Import ListNotations.
Open Scope Z_scope.

(** The encoder answers with clauses when it is asked for a number of literals
    that is possible. *)
Definition answers (E : card_encoder) : Prop := forall ls n top, ls <> [] -> 0 <= n <= Z.of_nat (List.length ls) ->
  exists cs top', library_equals E ls n top = Some (cs, top').
Definition always (f : gen) : Prop := forall top, exists cs top', f top = Some (cs, top').
Lemma always_pure o : (exists cs, o = Some cs) -> always (pure o).
Proof. intros [cs ->] top. unfold pure. cbn [obind]. eexists _, _. reflexivity. Qed.
Lemma always_guarded pre f : always f -> always (guarded pre f).
Proof. intros H top. unfold guarded. destruct (H top) as (cs & t & ->). cbn [obind]. eauto. Qed.
Lemma always_seq l : (forall f, In f l -> always f) -> always (seq_gen l).
Proof.
  induction l as [|f l IH]; intros H top; [cbn [seq_gen]; eauto|]. rewrite seq_gen_cons. destruct (H f (or_introl eq_refl) top) as (cs & t & ->).
  destruct (IH (fun x Hx => H x (or_intror Hx)) t) as (cs' & t' & ->). eauto.
Qed.
Lemma tree_nonempty ok ls : forall k, (exists i, k <= i <= k + Z.of_nat (List.length ls) /\ ok i = false) -> tree ok ls k <> [].
Proof.
  induction ls as [|l ls IH]; intros k (i & Hi & Ei); cbn [tree].
  - cbn [List.length] in Hi. assert (i = k) by lia. subst i. rewrite Ei. discriminate.
  - assert (M : forall pre c, c <> [] -> implies pre c <> []) by (intros pre [|x c] N; [contradiction|discriminate]). cbn [List.length] in Hi.
    destruct (Z.eq_dec i k) as [->|Ne]; intros X; apply app_eq_nil in X; destruct X as [X Y].
    + revert Y. apply M, IH. exists k. split; [lia|exact Ei].
    + revert X. apply M, IH. exists i. split; [lia|exact Ei].
Qed.
Lemma naive_answers : answers naive_encoder.
Proof.
  intros ls n top Nl Hn. unfold library_equals. cbn [naive_encoder enc_equals]. unfold nonempty.
  assert (Hl : (0 < List.length ls)%nat) by (destruct ls; [contradiction|cbn; lia]).
  assert (X : tree (fun k => k =? n) ls 0 <> []).
  { apply tree_nonempty. exists (if n =? 0 then 1 else 0). destruct (Z.eqb_spec n 0); (split; [lia|]); apply Z.eqb_neq; lia. }
  destruct (tree (fun k => k =? n) ls 0) as [|c r]; [contradiction|eauto].
Qed.

Lemma checkerboard_size w h ul : 0 < w -> 0 < h -> h mod 2 = 0 -> h / 2 <= Z.of_nat (List.length (checkerboard (pow2_grid w h ul))).
Proof.
  intros Hw Hh He. pose proof (Z.div_mod h 2 ltac:(lia)) as Dm. assert (Inc : incl (map (fun i => (0, 2 * i + 1)) (range (h / 2))) (checkerboard (pow2_grid w h ul))).
  { intros p Hp. apply in_map_iff in Hp. destruct Hp as (i & <- & Hi). apply range_in in Hi. apply (checkerboard_in w h ul). cbn [fst snd]. split; [split; cbn [fst snd garea area_of aw ah pg pow2_grid geo width height]; lia|].
    replace (0 + (2 * i + 1)) with (1 + i * 2) by lia. rewrite Z_mod_plus_full. reflexivity. }
  apply NoDup_incl_length in Inc; [|apply NoDup_map_on; [apply range_NoDup|intros x y _ _ E; assert (2 * x + 1 = 2 * y + 1) by congruence; lia]].
  rewrite map_length in Inc. assert (L : List.length (range (h / 2)) = Z.to_nat (h / 2)) by (unfold range; rewrite map_length, seq_length; reflexivity). rewrite L in Inc. lia.
Qed.

Lemma colouring_some g : wf_grid g -> exists cs, prevent_bad_colouring g = Some cs.
Proof.
  intros W. unfold prevent_bad_colouring. destruct (gcolours g) as [c|]; [|eauto]. destruct (c =? 1); [eauto|].
  destruct (transport_sat g W (fun _ => false) (fun p => colour (tile_at g p)) (fun p => colour_ux (tile_at g p)) (fun p => colour_uy (tile_at g p)) (colour_bits g)) as (cs & E & _); [| | |eauto];
    intros p Hp; (split; [apply fresh_length|apply (tile_at_ok g p W Hp)]).
Qed.
Theorem create_pow2_total E w h ul : answers E -> 0 < w -> (exists j, 0 < j /\ h = 2 ^ j) -> match ul with Some l => 0 <= l | None => True end ->
  exists cs top, create_pow2 E w h ul = Some (pow2_grid w h ul, cs, top).
Proof.
  intros HE Hw (j & Hj & Eh) Hul. assert (Hh : 0 < h) by (rewrite Eh; apply Z.pow_pos_nonneg; lia). assert (He : h mod 2 = 0) by (rewrite Eh; apply pow2_even; exact Hj).
  set (g := pow2_grid w h ul). pose proof (pow2_wf w h ul Hw Hh Hul) as W. change (pg w h ul) with g in W. pose proof (pow2_bits w h ul Hh He) as B. change (pg w h ul) with g in B.
  pose proof (Z.div_mod h 2 ltac:(lia)) as Dm.
  unfold create_pow2. rewrite (proj2 (Z.ltb_lt 0 w) Hw), (proj2 (Z.ltb_lt 0 h) Hh), (proj2 (is_power_of_two_iff h Hh)) by (exists j; split; [lia|exact Eh]). cbn [andb negb]. fold g.
  destruct (proj1 (C44_decodes g (fun _ => false) W)) as [init ->]. cbn [obind].
  match goal with |- context [seq_gen ?l ?t] => set (gens := l); assert (X : always (seq_gen gens)); [|destruct (X t) as (cs & top & ->); cbn [obind]; eauto] end.
  apply always_seq. unfold gens. intros f Hf. apply in_app_or in Hf. destruct Hf as [Hf|Hf]; [|apply in_app_or in Hf; destruct Hf as [Hf|Hf]; [|apply in_app_or in Hf; destruct Hf as [Hf|Hf]]].
  - destruct Hf as [<-|[<-|[<-|[<-|[]]]]]; apply always_pure; [eauto|eauto|apply (colouring_some g W)|].
    apply oflat_some. intros p Hp. apply iterate_tiles_in in Hp. destruct (level_clauses_exact w h ul Hw Hh Hul p Hp) as (cs & Ec & _). eauto.
  - apply in_map_iff in Hf. destruct Hf as (p & <- & Hp). apply (cells_inside w h ul) in Hp. unfold splitter_gen. apply always_seq. intros f Hf. apply in_app_or in Hf. destruct Hf as [Hf|[<-|[]]].
    + apply in_map_iff in Hf. destruct Hf as ([i l] & <- & Hi). apply indexed_in in Hi. cbn [fst snd]. apply always_guarded. intros top.
      assert (Hlt : (i < levels h)%nat). { assert (i < List.length (level g (levels h) p))%nat by (apply nth_error_Some; congruence). destruct (level_length w h ul p) as [Ll _]. change (pg w h ul) with g in Ll. lia. }
      assert (Li : 2 ^ Z.of_nat i <= h / 2).
      { unfold levels in Hlt. rewrite Eh, Z.log2_pow2 in Hlt by lia. rewrite Eh. replace j with (Z.succ (j - 1)) by lia. rewrite Z.pow_succ_r by lia. rewrite Z.mul_comm, Z.div_mul by lia. apply Z.pow_le_mono_r; lia. }
      pose proof (Z.pow_pos_nonneg 2 (Z.of_nat i) ltac:(lia) ltac:(lia)) as Pp. pose proof (hue_length w h ul p) as Hl. change (pg w h ul) with g in Hl. apply HE.
      * intros N. assert (colour_bits g = 0%nat) by (rewrite <- Hl, N; reflexivity). lia.
      * rewrite Hl, B. lia.
    + apply always_pure. apply oflat_some. intros d _. destruct (join_at_exact w h ul Hw Hh Hul p d Hp) as (cs & Ec & _). eauto.
  - destruct Hf as [<-|[<-|[<-|[]]]]; apply always_pure; apply oflat_some; intros y Hy; apply range_in in Hy.
    + destruct (first_exact w h ul Hw Hh He Hul y Hy) as (cs & Ec & _). eauto.
    + destruct (last_exact w h ul Hw Hh Hul y Hy) as (cs & Ec & _). eauto.
    + destruct (pair_exact w h ul Hw Hh He Hul y) as (cs & Ec & _); [|eauto]. assert ((h + 1) / 2 = h / 2) by (symmetry; apply Z.div_unique with (r := 1); lia). lia.
  - apply in_map_iff in Hf. destruct Hf as (i & <- & _). intros top. pose proof (checkerboard_size w h ul Hw Hh He) as Cs. fold g in Cs. assert (1 <= h / 2) by lia. apply HE.
    + intros N. apply (f_equal (@List.length lit)) in N. rewrite map_length in N. cbn in N. lia.
    + rewrite map_length. lia.
Qed.
Theorem power_of_two_total E w h ul : answers E -> 0 < w -> (exists j, 0 < j /\ h = 2 ^ j) -> match ul with Some l => 1 <= l | None => True end ->
  exists cs top, power_of_two E w h ul = Some (pow2_grid w h ul, cs, top).
Proof.
  intros HE Hw Hj Hul. destruct (create_pow2_total E w h ul HE Hw Hj) as (cs & top & Ec); [destruct ul; [lia|exact Logic.I]|].
  assert (Hh : 0 < h) by (destruct Hj as (j & H0 & ->); apply Z.pow_pos_nonneg; lia).
  unfold power_of_two. rewrite Ec. cbn [obind]. set (g := pow2_grid w h ul). assert (W : wf_grid g) by (apply (pow2_wf w h ul Hw Hh); destruct ul; [lia|exact Logic.I]).
  match goal with |- context [seq_gen ?l ?t] => set (gens := l); assert (X : always (seq_gen gens)); [|destruct (X t) as (c2 & t2 & ->); cbn [obind]; eauto] end.
  apply always_seq. unfold gens. intros f [<-|[<-|[<-|[<-|[<-|[]]]]]]; apply always_pure; eauto.
  - unfold enforce_maximum_underground_length. assert (Gl : glen g = ul) by reflexivity. rewrite Gl. destruct ul as [l|]; [|eauto]. rewrite (proj2 (Z.leb_le 1 l) Hul). cbn [negb]. eauto.
  - apply (expand_total g W); [lia|lia|cbn; lia|cbn; lia].
Qed.
