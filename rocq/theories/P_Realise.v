(** Every solution of the balancer constraints realises the network. *)
From Coq Require Import String ZArith List Bool Lia.
From Verif Require Import P_Network.
From Verif Require Import Spec_Cnf Spec_Tile Spec_Layout Spec_Network Spec_Balancer M_Json M_Tile M_Util M_Card M_Network M_Template M_Grid M_Oracle M_Balancer
  P_Cnf P_Util P_Card P_Tile P_Layout P_List P_Template P_Walk P_Grid P_GridSound P_GridOk P_Gen T_Grid T_Enumerate P_Trace P_Balancer.
Import ListNotations.
Open Scope Z_scope.

Lemma count_filter {X} a (f : X -> lit) l : count a (map f l) = Z.of_nat (List.length (filter (fun x => evl a (f x)) l)).
Proof.
  induction l as [|x l IH]; [reflexivity|]. cbn [map filter]. rewrite count_cons, IH. destruct (evl a (f x)); cbn [Z.b2z List.length]; lia.
Qed.
Lemma count_one_unique {X} a (f : X -> lit) l x y : NoDup l -> count a (map f l) <= 1 -> In x l -> In y l -> evl a (f x) = true -> evl a (f y) = true -> x = y.
Proof.
  intros Nd H Hx Hy Ex Ey. rewrite count_filter in H.
  assert (Fx : In x (filter (fun x => evl a (f x)) l)) by (apply filter_In; auto). assert (Fy : In y (filter (fun x => evl a (f x)) l)) by (apply filter_In; auto).
  destruct (filter (fun x => evl a (f x)) l) as [|u [|v r]]; [destruct Fx| |cbn [List.length] in H; lia].
  destruct Fx as [<-|[]], Fy as [<-|[]]. reflexivity.
Qed.
Lemma Forall2_repeat {X Y} (R : X -> Y -> Prop) l y : (forall x, In x l -> R x y) -> Forall2 R l (repeat y (List.length l)).
Proof. induction l as [|x l IH]; intros H; cbn; constructor; [apply H; left; reflexivity|apply IH; intros z Hz; apply H; right; exact Hz]. Qed.
Lemma Forall2_len {X Y} (R : X -> Y -> Prop) l k : Forall2 R l k -> List.length l = List.length k.
Proof. induction 1; cbn; congruence. Qed.
Lemma Forall2_nth {X Y} (R : X -> Y -> Prop) l k : Forall2 R l k -> forall i x y, nth_error l i = Some x -> nth_error k i = Some y -> R x y.
Proof. induction 1 as [|x y l k Hxy _ IH]; intros [|i] u v; cbn; intros E1 E2; try discriminate; [congruence|]. eapply IH; eauto. Qed.
Lemma Forall2_nth_l {X Y} (R : X -> Y -> Prop) l k : Forall2 R l k -> forall i x, nth_error l i = Some x -> exists y, nth_error k i = Some y /\ R x y.
Proof. induction 1 as [|x y l k Hxy _ IH]; intros [|i] u; cbn; intros E1; try discriminate; [injection E1 as <-; eauto|]. eapply IH; eauto. Qed.
Lemma Forall2_nth_r {X Y} (R : X -> Y -> Prop) l k : Forall2 R l k -> forall i y, nth_error k i = Some y -> exists x, nth_error l i = Some x /\ R x y.
Proof. induction 1 as [|x y l k Hxy _ IH]; intros [|i] u; cbn; intros E1; try discriminate; [injection E1 as <-; eauto|]. eapply IH; eauto. Qed.

(** Choosing a bit for every member of a list. *)
Lemma choose_bits {X} (l : list X) (P : X -> bool -> Prop) : (forall x, In x l -> exists b, P x b) ->
  exists f : nat -> bool, forall i x, nth_error l i = Some x -> P x (f i).
Proof.
  induction l as [|x l IH]; intros H; [exists (fun _ => false); intros [|i] x; discriminate|].
  destruct (H x (or_introl eq_refl)) as [b Hb]. destruct IH as [f Hf]; [intros y Hy; apply H; right; exact Hy|].
  exists (fun i => match i with O => b | S j => f j end). intros [|i] y; cbn; [intros [= <-]; exact Hb|apply Hf].
Qed.
(** Choosing a value for every member of a list. *)
Lemma choose_fun {X Y} (dec : forall x x' : X, {x = x'} + {x <> x'}) (l : list X) (P : X -> Y -> Prop) (y0 : Y) :
  (forall x, In x l -> exists y, P x y) -> exists f, forall x, In x l -> P x (f x).
Proof.
  induction l as [|x l IH]; intros H; [exists (fun _ => y0); intros x []|].
  destruct (H x (or_introl eq_refl)) as [y Hy]. destruct IH as [f Hf]; [intros z Hz; apply H; right; exact Hz|].
  exists (fun z => if dec z x then y else f z). intros z Hz. destruct (dec z x) as [->|N]; [exact Hy|]. destruct Hz as [<-|Hz]; [contradiction|auto].
Qed.
Lemma sink_dec (k k' : sink) : {k = k'} + {k <> k'}.
Proof. decide equality; (apply Nat.eq_dec || apply bool_dec). Qed.

(** A side of a splitter uses its halves in one order or the other. *)
Lemma side_flip s la lb ca cb : side_rule s la lb ca cb -> exists f, forall b,
  match pick s b with
  | Some c => (if xorb b f then lb else la) = true /\ (if xorb b f then cb else ca) = c
  | None => (if xorb b f then lb else la) = false
  end.
Proof.
  destruct s as [[x|] [y|]]; cbn [side_rule].
  - intros (-> & -> & [[-> ->]|[-> ->]]); [exists false|exists true]; intros []; cbn; auto.
  - intros (N & H1 & H2). destruct la, lb; try congruence; [exists false|exists true]; intros []; cbn; auto.
  - intros (N & H1 & H2). destruct la, lb; try congruence; [exists true|exists false]; intros []; cbn; auto.
  - intros [].
Qed.

Section Realise.
  Variable g : grid.
  Hypothesis W : wf_grid g.
  Hypothesis CX : wrap_x (geo g) = false.
  Hypothesis CY : wrap_y (geo g) = false.
  Variable net : counter.
  Variables ic n oc m : Z.
  Variable a : assignment.
  Hypothesis B : balancer_rules g net ic n oc m a.
  Hypothesis So : solves g (EBool true) a.
  Variable T : layout.
  Hypothesis R : reads g a T.
  Hypothesis Ne : elements net <> [].
  Notation A := (garea g).
  Notation V p := (view_of a (tile_at g p)).
  Notation L := (max_hidden g).
  Notation C p := (tint g a p).

  Lemma EC : edges_cover g (EBool true).
  Proof using. unfold edges_cover. cbn. auto. Qed.
  Lemma area_ok : wf_area A.
  Proof. apply WA. exact W. Qed.
  Lemma VL : valid_layout A T L.
  Proof. apply (C49_solutions_are_valid_layouts g (EBool true) a T W EC So R). Qed.
  Lemma G : grid_rules g a.
  Proof. apply (solves_init_rules g a W). apply So. Qed.
  Lemma Sh p : inside A p -> shows (V p) (T p).
  Proof. intros Hp. apply (T_shows g a T R G p Hp). Qed.
  Lemma link p d q : inside A p -> neighbour A p d = Some q -> vo (V p) d = vi (V q) d.
  Proof.
    intros Hp E. destruct So as (_ & Ix & _). rewrite (intersection_sat g W a) in Ix. specialize (Ix p d Hp). unfold link_rule in Ix. rewrite E in Ix. apply Ix.
  Qed.
  Lemma bk p d q : inside A p -> neighbour A p d = Some q -> neighbour A q (opposite d) = Some p.
  Proof. apply neighbour_back. exact area_ok. Qed.
  Lemma tint_carried p q : inside A p -> carried A T L p q -> C p = C q.
  Proof.
    intros Hp H. unfold tint. assert (SC : solves_colouring g a) by apply B. destruct (gcolours g) as [c|] eqn:Ec.
    - eapply (C51_colour_transported g (EBool true) a T c L); eauto. apply EC.
    - assert (X : forall q, value a (colour (tile_at g q)) = 0).
      { intros r. destruct (colour_len g r) as [E _]. unfold colour_bits in E. rewrite Ec in E. destruct (colour (tile_at g r)); [reflexivity|cbn in E; lia]. }
      rewrite !X. reflexivity.
  Qed.
  Lemma CL p : In p (cells (width (geo g)) (height (geo g))) <-> inside A p.
  Proof. change (cells (width (geo g)) (height (geo g))) with (iterate_tiles (geo g)). apply iterate_tiles_in. Qed.
  Lemma ND : NoDup (cells (width (geo g)) (height (geo g))).
  Proof.
    unfold cells. apply NoDup_flat_map.
    - unfold range. apply NoDup_map_inj; [intros; lia|apply seq_NoDup].
    - intros x _. apply NoDup_map_inj; [intros y z [=]; assumption|]. unfold range. apply NoDup_map_inj; [intros; lia|apply seq_NoDup].
    - intros x y z _ _ H1 H2. apply in_map_iff in H1, H2. destruct H1 as (u & <- & _), H2 as (v & [= E _] & _). congruence.
  Qed.

  (** ** The splitters *)
  Definition mate (p : pos) : pos :=
    match T p with Splitter d _ => match neighbour A p (anticlockwise d) with Some q => q | None => p end | _ => p end.
  Definition head_ok (s : pos * pos) (nd : splitter) : Prop :=
    inside A (fst s) /\ inside A (snd s) /\ exists d, T (fst s) = Splitter d true /\ T (snd s) = Splitter d false /\
      neighbour A (fst s) (anticlockwise d) = Some (snd s) /\ splitter_rule g a nd (fst s) d.
  Lemma node_head i nd c p : nth_error net i = Some (nd, c) -> inside A p -> evl a (node g p i) = true -> head_ok (p, mate p) nd.
  Proof.
    intros Hi Hp Hn. assert (Hl : (i < List.length net)%nat) by (apply nth_error_Some; congruence).
    assert (Hh : vh (V p) = true).
    { pose proof (br_one _ _ _ _ _ _ _ B p Hp) as H1. unfold one_rule in H1. destruct (vh (V p)); [reflexivity|].
      assert (0 < count a (nodes g (List.length net) p)); [|lia]. apply count_pos_In. exists (node g p i). split; [|exact Hn].
      unfold nodes. apply in_map. apply in_seq. lia. }
    destruct (br_nodes _ _ _ _ _ _ _ B i nd c p Hi Hp Hn) as ((d & Hd) & Hr).
    pose proof (Sh p Hp) as S. assert (TS : exists e, T p = Splitter e true).
    { destruct S as (S & _ & _ & _ & _ & _ & Sx). rewrite Sx in Hh. destruct (T p) as [| |? ?|? ?|e h|? ?|? ?]; try discriminate. subst h. eauto. }
    destruct TS as (e & Te). assert (e = d).
    { destruct S as (S & _). rewrite Te in S. destruct S as (_ & _ & S1 & S2 & _). unfold side_dir in Hd. destruct (any_missing (fst nd)); symmetry; auto. }
    subst e. specialize (Hr d Hd). pose proof Hr as (p10 & p01 & p11 & E10 & E01 & E11 & _).
    destruct VL as (_ & Pair & _). destruct (Pair p d true Hp Te) as (q & Eq & Tq). cbn [mate_side negb] in Eq, Tq.
    unfold head_ok, mate. cbn [fst snd]. rewrite Te, Eq. split; [exact Hp|]. split; [eapply ahead_inside; exact Eq|]. exists d. auto.
  Qed.

  Definition heads (i : nat) : list (pos * pos) :=
    map (fun p => (p, mate p)) (filter (fun p => evl a (node g p i)) (cells (width (geo g)) (height (geo g)))).
  Definition hs : list (pos * pos) := flat_map (fun ie => heads (fst ie)) (indexed net).

  Lemma hs_ok : Forall2 head_ok hs (elements net).
  Proof.
    assert (X : forall l s, (forall i nd c, nth_error l i = Some (nd, c) ->
        List.length (heads (s + i)) = Z.to_nat c /\ forall x, In x (heads (s + i)) -> head_ok x nd) ->
      Forall2 head_ok (flat_map (fun ie => heads (fst ie)) (combine (seq s (List.length l)) l)) (elements l)).
    { induction l as [|[nd c] l IH]; intros s H; [constructor|]. cbn [List.length seq combine flat_map elements fst snd].
      destruct (H 0%nat nd c eq_refl) as [H1 H2]. rewrite Nat.add_0_r in H1, H2. apply Forall2_app.
      - rewrite <- H1. apply Forall2_repeat. exact H2.
      - apply IH. intros i nd' c' Hi. specialize (H (S i) nd' c' Hi). rewrite Nat.add_succ_r in H. exact H. }
    apply X. cbn [Nat.add]. intros i nd c Hi. split.
    - pose proof (br_counts _ _ _ _ _ _ _ B i nd c Hi) as H. rewrite count_filter in H. cbv beta in H. unfold heads. rewrite map_length. rewrite <- H. symmetry. apply Nat2Z.id.
    - intros x Hx. unfold heads in Hx. apply in_map_iff in Hx. destruct Hx as (p & <- & Hp). apply filter_In in Hp. destruct Hp as [Hp Hn]. apply CL in Hp.
      eapply node_head; eauto.
  Qed.
  Lemma map_fst_hs : map fst hs = flat_map (fun ie => filter (fun p => evl a (node g p (fst ie))) (cells (width (geo g)) (height (geo g)))) (indexed net).
  Proof.
    unfold hs. induction (indexed net) as [|ie l IH]; [reflexivity|]. cbn [flat_map]. rewrite map_app, IH. f_equal.
    unfold heads. rewrite map_map. apply map_id.
  Qed.
  Lemma indexed_nodup {X} (l : list X) : NoDup (indexed l).
  Proof.
    unfold indexed. assert (G' : forall s, NoDup (combine (seq s (List.length l)) l)); [|apply G'].
    induction l as [|x l IH]; intros s; cbn; constructor; auto. intros H. apply in_combine_l, in_seq in H. lia.
  Qed.
  Lemma hs_nodup : NoDup (map fst hs).
  Proof.
    rewrite map_fst_hs. apply NoDup_flat_map.
    - apply indexed_nodup.
    - intros ie _. apply NoDup_filter. exact ND.
    - intros [i x] [j y] p Hi Hj Hx Hy. cbn [fst] in *. apply indexed_in in Hi, Hj. apply filter_In in Hx, Hy. destruct Hx as [Hp Ex], Hy as [_ Ey].
      apply CL in Hp. assert (i = j); [|subst; congruence].
      apply (count_one_unique a (node g p) (seq 0 (List.length net)) i j).
      + apply seq_NoDup.
      + pose proof (br_one _ _ _ _ _ _ _ B p Hp) as H1. unfold one_rule, nodes in H1. rewrite H1. destruct (vh (V p)); lia.
      + apply in_seq. split; [lia|]. apply nth_error_Some. congruence.
      + apply in_seq. split; [lia|]. apply nth_error_Some. congruence.
      + exact Ex.
      + exact Ey.
  Qed.
  Lemma hs_all p d : inside A p -> T p = Splitter d true -> exists j, nth_error hs j = Some (p, mate p).
  Proof.
    intros Hp Tp. apply In_nth_error. unfold hs.
    pose proof (Sh p Hp) as (_ & _ & _ & _ & _ & _ & Sx). rewrite Tp in Sx. change (vh (V p) = true) in Sx.
    pose proof (br_one _ _ _ _ _ _ _ B p Hp) as H1. unfold one_rule in H1. rewrite Sx in H1.
    destruct (proj1 (count_pos_In a (nodes g (List.length net) p))) as (l & Hl & El); [lia|].
    unfold nodes in Hl. apply in_map_iff in Hl. destruct Hl as (i & <- & Hi). apply in_seq in Hi.
    destruct (nth_error net i) as [e|] eqn:En; [|apply nth_error_None in En; lia].
    apply in_flat_map. exists (i, e). split; [apply indexed_in; exact En|]. cbn [fst]. unfold heads. apply in_map_iff. exists p. split; [reflexivity|].
    apply filter_In. split; [apply CL; exact Hp|exact El].
  Qed.

  Lemma hs_nth j s : nth_error hs j = Some s -> exists nd, nth_error (elements net) j = Some nd /\ head_ok s nd.
  Proof. apply (Forall2_nth_l _ _ _ hs_ok). Qed.
  Lemma el_nth j nd : nth_error (elements net) j = Some nd -> exists s, nth_error hs j = Some s /\ head_ok s nd.
  Proof. apply (Forall2_nth_r _ _ _ hs_ok). Qed.

  (** Every splitter half belongs to one of them. *)
  Lemma half_in p d h : inside A p -> T p = Splitter d h -> exists j s, nth_error hs j = Some s /\ p = half s (negb h).
  Proof.
    intros Hp Tp. destruct h.
    - destruct (hs_all p d Hp Tp) as [j Hj]. exists j, (p, mate p). split; [exact Hj|reflexivity].
    - destruct VL as (_ & Pair & _). destruct (Pair p d false Hp Tp) as (q & Eq & Tq). cbn [mate_side negb] in Eq, Tq.
      assert (Hq : inside A q) by (eapply ahead_inside; exact Eq). destruct (hs_all q d Hq Tq) as [j Hj]. exists j, (q, mate q). split; [exact Hj|].
      cbn [negb half snd]. unfold mate. rewrite Tq. apply bk in Eq; [|exact Hp]. replace (opposite (clockwise d)) with (anticlockwise d) in Eq by (destruct d; reflexivity).
      rewrite Eq. reflexivity.
  Qed.
  Lemma half_inj i j s s' b b' : nth_error hs i = Some s -> nth_error hs j = Some s' -> half s b = half s' b' -> i = j /\ b = b'.
  Proof.
    intros Hi Hj E. destruct (hs_nth _ _ Hi) as (nd & _ & I1 & I2 & d & T1 & T2 & N1 & _). destruct (hs_nth _ _ Hj) as (nd' & _ & J1 & J2 & e & U1 & U2 & N2 & _).
    assert (b = b') by (destruct b, b'; cbn [half] in E; congruence). subst b'. split; [|reflexivity].
    assert (E1 : fst s = fst s').
    { destruct b; cbn [half] in E; [|exact E]. assert (d = e) by congruence. subst e. apply bk in N1; [|exact I1]. apply bk in N2; [|exact J1]. congruence. }
    pose proof hs_nodup as Nd. rewrite NoDup_nth_error in Nd. apply Nd.
    - rewrite map_length. apply nth_error_Some. congruence.
    - rewrite !nth_error_map, Hi, Hj. cbn. congruence.
  Qed.

  (** The grid has two rows and two columns. *)
  Lemma size2 : 2 <= width (geo g) /\ 2 <= height (geo g).
  Proof.
    destruct (elements net) as [|nd r] eqn:En; [contradiction|].
    destruct (el_nth 0 nd) as (s & _ & Hs & _ & d & _ & _ & _ & p10 & p01 & p11 & E10 & E01 & _); [rewrite En; reflexivity|].
    destruct s as [[x y] t]. cbn [fst snd] in *. destruct Hs as [Hx Hy]. cbn [fst snd] in Hx, Hy.
    unfold neighbour, ahead in E10, E01. apply place_inside in E10 as I10. apply place_inside in E01 as I01.
    revert E10 E01 I10 I01. unfold place. cbn [garea area_of wrapx wrapy aw ah fst snd] in *. rewrite CX, CY.
    destruct (insideb _ _); [|discriminate]. intros E10. destruct (insideb _ _); [|discriminate]. intros E01.
    injection E10 as <-. injection E01 as <-. unfold inside. cbn [garea area_of wrapx wrapy aw ah fst snd].
    destruct d; cbn; lia.
  Qed.

  (** ** The border *)
  Lemma flag_in p : inside A p -> (vinp (V p) = true <-> exists d, vi (V p) d = true /\ neighbour A p (opposite d) = None).
  Proof. intros Hp. destruct size2 as [H1 H2]. apply (C62_boundary_flags g a W (proj1 So) CX CY H1 H2 p Hp). Qed.
  Lemma flag_out p : inside A p -> (voutp (V p) = true <-> exists d, vo (V p) d = true /\ neighbour A p d = None).
  Proof. intros Hp. destruct size2 as [H1 H2]. apply (C62_boundary_flags g a W (proj1 So) CX CY H1 H2 p Hp). Qed.

  Definition ins : list pos := filter (fun p => vinp (V p)) (cells (width (geo g)) (height (geo g))).
  Definition outs : list pos := filter (fun p => voutp (V p)) (cells (width (geo g)) (height (geo g))).
  Lemma ins_length : Z.of_nat (List.length ins) = n.
  Proof. rewrite <- (br_inputs _ _ _ _ _ _ _ B), count_filter. reflexivity. Qed.
  Lemma outs_length : Z.of_nat (List.length outs) = m.
  Proof. rewrite <- (br_outputs _ _ _ _ _ _ _ B), count_filter. reflexivity. Qed.
  Lemma ins_in p : In p ins <-> inside A p /\ vinp (V p) = true.
  Proof. unfold ins. rewrite filter_In, CL. reflexivity. Qed.
  Lemma outs_in p : In p outs <-> inside A p /\ voutp (V p) = true.
  Proof. unfold outs. rewrite filter_In, CL. reflexivity. Qed.

  (** A splitter does not look out of the grid. *)
  Lemma splitter_ahead p d h : inside A p -> T p = Splitter d h -> exists q, neighbour A p d = Some q.
  Proof.
    intros Hp Tp. destruct (half_in p d h Hp Tp) as (j & s & Hj & E). destruct (hs_nth _ _ Hj) as (nd & _ & I1 & I2 & e & T1 & T2 & N1 & p10 & p01 & p11 & E10 & E01 & E11 & _).
    assert (e = d) by (destruct h; cbn [negb half] in E; congruence). subst e. destruct h; cbn [negb half] in E; subst p; [eauto|].
    rewrite N1 in E01. injection E01 as <-. eauto.
  Qed.
  Lemma shows_in p d : inside A p -> vi (V p) d = true -> takes (T p) d.
  Proof. intros Hp. apply shows_takes. apply Sh. exact Hp. Qed.
  Lemma shows_out p d : inside A p -> vo (V p) d = true -> pushes (T p) d.
  Proof. intros Hp. apply shows_pushes. apply Sh. exact Hp. Qed.

  Lemma outs_leave p : In p outs <-> reaches A T (Leave p) p.
  Proof.
    rewrite outs_in. split.
    - intros [Hp Hf]. apply flag_out in Hf; [|exact Hp]. destruct Hf as (d & Hd & En). split; [reflexivity|]. split; [exact Hp|].
      pose proof (shows_out p d Hp Hd) as Pd. split; [|eauto]. intros Hs. destruct (T p) as [| |? ?|? ?|e h|? ?|? ?] eqn:Tp; try contradiction.
      cbn in Pd. subst e. destruct (splitter_ahead p d h Hp Tp) as [q Eq]. congruence.
    - intros (_ & Hp & N & d & Pd & En). split; [exact Hp|]. apply flag_out; [exact Hp|]. exists d. split; [|exact En].
      apply (shows_pushes_inv _ _ _ (Sh p Hp) Pd N).
  Qed.
  Lemma ins_enter p : In p ins -> begins A T (Enter p) p.
  Proof.
    rewrite ins_in. intros [Hp Hf]. apply flag_in in Hf; [|exact Hp]. destruct Hf as (d & Hd & En). split; [reflexivity|]. split; [exact Hp|].
    exists d. split; [apply shows_in; assumption|exact En].
  Qed.
  Lemma enter_ins p d : inside A p -> takes (T p) d -> neighbour A p (opposite d) = None -> vi (V p) d = true -> In p ins.
  Proof. intros Hp Tk En Hd. apply ins_in. split; [exact Hp|]. apply flag_in; [exact Hp|]. eauto. Qed.

  (** ** Which halves are used *)
  Section Flips.
    Variables fi fo : nat -> bool.
    Hypothesis Hfi : forall j s, nth_error hs j = Some s -> forall nd d, nth_error (elements net) j = Some nd -> T (fst s) = Splitter d true -> forall b,
      match pick (fst nd) b with
      | Some c => vi (V (half s (xorb b (fi j)))) d = true /\ C (half s (xorb b (fi j))) = c
      | None => vi (V (half s (xorb b (fi j)))) d = false
      end.
    Hypothesis Hfo : forall j s, nth_error hs j = Some s -> forall nd d, nth_error (elements net) j = Some nd -> T (fst s) = Splitter d true -> forall b,
      exists q, neighbour A (half s (xorb b (fo j))) d = Some q /\
      match pick (snd nd) b with
      | Some c => vo (V (half s (xorb b (fo j)))) d = true /\ C q = c
      | None => vo (V (half s (xorb b (fo j)))) d = false
      end.
    Definition P : placement := {| pl_splitters := hs; pl_in := fi; pl_out := fo; pl_inputs := ins; pl_outputs := outs |}.
    Notation N := (List.length ins).
    Notation M := (List.length outs).
    Notation el := (elements net).

    (** A start is used when the variables say so. *)
    Lemma start_used s q r : begins A T s q -> carried A T L q r ->
      (forall d, is_splitter_tile (T r) -> takes (T r) d -> vi (V r) d = true) ->
      exists src, start_of P src = Some s /\ source_colour el ic N src = Some (C q).
    Proof.
      intros Hb Hc Hr. assert (Hq : inside A q) by (eapply begins_inside; exact Hb).
      assert (U : forall d, takes (T q) d -> vi (V q) d = true).
      { intros d Tk. destruct (T q) as [| |i o|e b|e h|e k|u v] eqn:Tq; try contradiction.
        1, 2: apply (shows_takes_inv _ _ _ (Sh q Hq)); rewrite Tq; [exact Tk|intros []].
        assert (q = r). { inversion Hc as [x Ex|x y z Hx Hy|x y z Hx Hy]; subst; [reflexivity|destruct Hx as (_ & Nx & _); rewrite Tq in Nx; exfalso; apply Nx; exact Logic.I|].
          destruct Hx as (_ & d' & Tx & _). congruence. }
        subst r. apply Hr; rewrite Tq; [exact Logic.I|exact Tk]. }
      destruct s as [p|p].
      - destruct Hb as (-> & Hp & d & Tk & En). assert (Hin : In p ins) by (eapply enter_ins; eauto).
        apply In_nth_error in Hin. destruct Hin as [j Hj]. exists (FromInput j). cbn [start_of P pl_inputs]. rewrite Hj. split; [reflexivity|].
        cbn [source_colour]. assert (j < N)%nat by (apply nth_error_Some; congruence). replace (j <? N)%nat with true by (symmetry; apply Nat.ltb_lt; assumption).
        f_equal. symmetry. apply (br_ends _ _ _ _ _ _ _ B p Hp). apply (proj1 (ins_in p)). eapply nth_error_In; exact Hj.
      - destruct Hb as (Hp & d & h & Tp & En & Tk). pose proof (U d Tk) as Uq. rewrite <- (link p d q Hp En) in Uq.
        destruct (half_in p d h Hp Tp) as (j & s & Hj & Eh). destruct (hs_nth _ _ Hj) as (nd & Hnd & I1 & I2 & e & T1 & T2 & N1 & _).
        assert (e = d) by (destruct h; cbn [negb half] in Eh; congruence). subst e.
        exists (FromSplitter j (xorb (negb h) (fo j))). cbn [start_of P pl_splitters pl_out]. rewrite Hj. cbn [option_map source_colour]. rewrite Hnd.
        destruct (Hfo j s Hj nd d Hnd T1 (xorb (negb h) (fo j))) as (q' & Eq' & Hm).
        replace (xorb (xorb (negb h) (fo j)) (fo j)) with (negb h) in * by (destruct h, (fo j); reflexivity). rewrite <- Eh in *. rewrite En in Eq'. injection Eq' as <-.
        split; [reflexivity|]. destruct (pick (snd nd) (xorb (negb h) (fo j))); [f_equal; symmetry; apply Hm|congruence].
    Qed.

    (** A source of the network starts a line. *)
    Lemma source_begins src c : source_colour el ic N src = Some c ->
      exists s q, start_of P src = Some s /\ begins A T s q /\ (forall d, takes (T q) d -> vi (V q) d = true) /\ C q = c.
    Proof.
      destruct src as [j|j b]; cbn [source_colour start_of P pl_inputs pl_splitters pl_out].
      - destruct (Nat.ltb_spec j N) as [Hj|]; [|discriminate]. intros [= <-]. destruct (nth_error ins j) as [p|] eqn:Ep; [|apply nth_error_None in Ep; lia].
        assert (Hin : In p ins) by (eapply nth_error_In; exact Ep). exists (Enter p), p. split; [reflexivity|]. split; [apply ins_enter; exact Hin|].
        apply ins_in in Hin. destruct Hin as [Hp Hf]. split; [|apply (br_ends _ _ _ _ _ _ _ B p Hp); exact Hf].
        intros d Tk. apply flag_in in Hf; [|exact Hp]. destruct Hf as (e & He & _). rewrite (takes_fun _ _ _ Tk (shows_in p e Hp He)). exact He.
      - destruct (nth_error el j) as [nd|] eqn:En; [|discriminate]. intros Hpk. destruct (el_nth j nd En) as (s & Hs & I1 & I2 & d & T1 & T2 & N1 & _).
        rewrite Hs. cbn [option_map]. destruct (Hfo j s Hs nd d En T1 b) as (q & Eq & Hm). rewrite Hpk in Hm. destruct Hm as [Vo Cq].
        assert (Hp : inside A (half s (xorb b (fo j)))) by (destruct (xorb b (fo j)); assumption).
        assert (Hq : inside A q) by (eapply ahead_inside; exact Eq). pose proof Vo as Vi. rewrite (link _ _ _ Hp Eq) in Vi.
        exists (Exit (half s (xorb b (fo j)))), q. split; [reflexivity|]. split; [|split; [|exact Cq]].
        + split; [exact Hp|]. exists d, (negb (xorb b (fo j))). split; [destruct (xorb b (fo j)); assumption|]. split; [exact Eq|]. apply shows_in; assumption.
        + intros e Tk. rewrite (takes_fun _ _ _ Tk (shows_in q d Hq Vi)). exact Vi.
    Qed.

    (** A finish is used when the variables say so. *)
    Lemma finish_used f r : reaches A T f r -> (forall d, is_splitter_tile (T r) -> takes (T r) d -> vi (V r) d = true) ->
      exists k, finish_of P k = Some f /\ sink_colour el oc M k = Some (C r).
    Proof.
      intros Hr Hu. destruct f as [p|p].
      - assert (r = p) by apply Hr. subst r. assert (Hin : In p outs) by (apply outs_leave; exact Hr). pose proof (proj1 (outs_in p) Hin) as [Hp Hf].
        apply In_nth_error in Hin. destruct Hin as [j Hj]. exists (ToOutput j). cbn [finish_of P pl_outputs]. rewrite Hj. split; [reflexivity|].
        cbn [sink_colour]. assert (j < M)%nat by (apply nth_error_Some; congruence). replace (j <? M)%nat with true by (symmetry; apply Nat.ltb_lt; assumption).
        f_equal. symmetry. apply (br_ends _ _ _ _ _ _ _ B p Hp). exact Hf.
      - destruct Hr as (-> & Hp & Hs). destruct (T p) as [| |? ?|? ?|d h|? ?|? ?] eqn:Tp; try contradiction.
        specialize (Hu d Hs eq_refl). destruct (half_in p d h Hp Tp) as (j & s & Hj & Eh). destruct (hs_nth _ _ Hj) as (nd & Hnd & I1 & I2 & e & T1 & T2 & N1 & _).
        assert (e = d) by (destruct h; cbn [negb half] in Eh; congruence). subst e.
        exists (ToSplitter j (xorb (negb h) (fi j))). cbn [finish_of P pl_splitters pl_in]. rewrite Hj. cbn [option_map sink_colour]. rewrite Hnd.
        pose proof (Hfi j s Hj nd d Hnd T1 (xorb (negb h) (fi j))) as Hm.
        replace (xorb (xorb (negb h) (fi j)) (fi j)) with (negb h) in * by (destruct h, (fi j); reflexivity). rewrite <- Eh in *.
        split; [reflexivity|]. destruct (pick (fst nd) (xorb (negb h) (fi j))); [f_equal; symmetry; apply Hm|congruence].
    Qed.

    (** A sink of the network finishes a line. *)
    Lemma sink_reaches k c : sink_colour el oc M k = Some c ->
      exists f r, finish_of P k = Some f /\ reaches A T f r /\ fed A T r /\ (forall d, is_splitter_tile (T r) -> takes (T r) d -> vi (V r) d = true) /\ C r = c.
    Proof.
      destruct k as [j|j b]; cbn [sink_colour finish_of P pl_outputs pl_splitters pl_in].
      - destruct (Nat.ltb_spec j M) as [Hj|]; [|discriminate]. intros [= <-]. destruct (nth_error outs j) as [p|] eqn:Ep; [|apply nth_error_None in Ep; lia].
        assert (Hin : In p outs) by (eapply nth_error_In; exact Ep). exists (Leave p), p. split; [reflexivity|]. pose proof (proj1 (outs_leave p) Hin) as Rp. split; [exact Rp|].
        apply outs_in in Hin. destruct Hin as [Hp Hf]. destruct Rp as (_ & _ & Ns & d & Pd & En). split; [|split; [|apply (br_ends _ _ _ _ _ _ _ B p Hp); exact Hf]].
        + split; [exact Hp|]. destruct (T p) as [| |i o|e u|e h|e kk|x y] eqn:Tp; try contradiction.
          * right. exists i. split; [reflexivity|]. destruct (neighbour A p (opposite i)) as [q|] eqn:Eq; [|exact Logic.I].
            eapply (supplied A T L VL p); [exact Hp|rewrite Tp; reflexivity|rewrite Tp; intros []|exact Eq].
          * destruct u; [contradiction|]. left. eauto.
          * exfalso. apply Ns. exact Logic.I.
        + intros e Hs. contradiction.
      - destruct (nth_error el j) as [nd|] eqn:En; [|discriminate]. intros Hpk. destruct (el_nth j nd En) as (s & Hs & I1 & I2 & d & T1 & T2 & N1 & _).
        rewrite Hs. cbn [option_map]. pose proof (Hfi j s Hs nd d En T1 b) as Hm. rewrite Hpk in Hm. destruct Hm as [Vi Cr].
        set (r := half s (xorb b (fi j))) in *. assert (Hr : inside A r) by (unfold r; destruct (xorb b (fi j)); assumption).
        assert (Tr : T r = Splitter d (negb (xorb b (fi j)))) by (unfold r; destruct (xorb b (fi j)); assumption).
        exists (Entrance r), r. split; [reflexivity|]. split; [split; [reflexivity|]; split; [exact Hr|rewrite Tr; exact Logic.I]|]. split; [|split; [|exact Cr]].
        + split; [exact Hr|]. right. exists d. rewrite Tr. split; [reflexivity|]. destruct (neighbour A r (opposite d)) as [q|] eqn:Eq; [|exact Logic.I].
          assert (Hq : inside A q) by (eapply ahead_inside; exact Eq). apply bk in Eq; [|exact Hr]. rewrite opposite_opposite in Eq.
          apply shows_out; [exact Hq|]. rewrite (link q d r Hq Eq). exact Vi.
        + intros e _ Tk. rewrite Tr in Tk. cbn in Tk. subst e. exact Vi.
    Qed.

    Lemma start_of_inj s s' st : start_of P s = Some st -> start_of P s' = Some st -> s = s'.
    Proof.
      destruct s as [j|j b], s' as [j'|j' b']; cbn [start_of P pl_inputs pl_splitters pl_out].
      - destruct (nth_error ins j) as [p|] eqn:E1; [|discriminate]. destruct (nth_error ins j') as [p'|] eqn:E2; [|discriminate]. cbn [option_map]. intros [= <-] [= <-].
        f_equal. assert (Nd : NoDup ins) by (apply NoDup_filter; exact ND). rewrite NoDup_nth_error in Nd. apply Nd; [apply nth_error_Some; congruence|congruence].
      - destruct (nth_error ins j); [|discriminate]. destruct (nth_error hs j'); [|discriminate]. cbn. congruence.
      - destruct (nth_error hs j); [|discriminate]. destruct (nth_error ins j'); [|discriminate]. cbn. congruence.
      - destruct (nth_error hs j) as [x|] eqn:E1; [|discriminate]. destruct (nth_error hs j') as [y|] eqn:E2; [|discriminate]. cbn [option_map]. intros [= <-] [= E].
        destruct (half_inj _ _ _ _ _ _ E2 E1 E) as [<- Eb]. f_equal. destruct b, b', (fo j'); cbn in Eb; congruence.
    Qed.
    Lemma finish_of_inj k k' f : finish_of P k = Some f -> finish_of P k' = Some f -> k = k'.
    Proof.
      destruct k as [j|j b], k' as [j'|j' b']; cbn [finish_of P pl_outputs pl_splitters pl_in].
      - destruct (nth_error outs j) as [p|] eqn:E1; [|discriminate]. destruct (nth_error outs j') as [p'|] eqn:E2; [|discriminate]. cbn [option_map]. intros [= <-] [= <-].
        f_equal. assert (Nd : NoDup outs) by (apply NoDup_filter; exact ND). rewrite NoDup_nth_error in Nd. apply Nd; [apply nth_error_Some; congruence|congruence].
      - destruct (nth_error outs j); [|discriminate]. destruct (nth_error hs j'); [|discriminate]. cbn. congruence.
      - destruct (nth_error hs j); [|discriminate]. destruct (nth_error outs j'); [|discriminate]. cbn. congruence.
      - destruct (nth_error hs j) as [x|] eqn:E1; [|discriminate]. destruct (nth_error hs j') as [y|] eqn:E2; [|discriminate]. cbn [option_map]. intros [= <-] [= E].
        destruct (half_inj _ _ _ _ _ _ E2 E1 E) as [<- Eb]. f_equal. destruct b, b', (fi j'); cbn in Eb; congruence.
    Qed.

    Definition sinks : list sink := map ToOutput (seq 0 M) ++ flat_map (fun i => [ToSplitter i false; ToSplitter i true]) (seq 0 (List.length el)).
    Lemma sinks_all k : sink_colour el oc M k <> None -> In k sinks.
    Proof.
      unfold sinks. intros H. apply in_app_iff. destruct k as [j|j b]; cbn [sink_colour] in H.
      - left. apply in_map. apply in_seq. destruct (Nat.ltb_spec j M); [lia|contradiction].
      - right. apply in_flat_map. exists j. split; [apply in_seq; split; [lia|]; apply nth_error_Some; destruct (nth_error el j); congruence|]. destruct b; cbn; tauto.
    Qed.

    Definition belt (k : sink) (src : source) : Prop := forall c, sink_colour el oc M k = Some c ->
      exists s f, start_of P src = Some s /\ finish_of P k = Some f /\ joined A T L s f /\ source_colour el ic N src = Some c.
    Lemma belt_exists k : exists src, belt k src.
    Proof.
      unfold belt. destruct (sink_colour el oc M k) as [c|] eqn:Ek; [|exists (FromInput 0); intros c [=]].
      destruct (sink_reaches k c Ek) as (f & r & Ef & Rf & Fr & Ur & Cr).
      destruct (trace_back A T L area_ok VL r Fr (reaches_last A T L f r Rf)) as (s & q & Bq & Cq).
      destruct (start_used s q r Bq Cq Ur) as (src & Es & Cs). exists src. intros c' [= <-]. exists s, f. split; [exact Es|]. split; [exact Ef|].
      split; [exists q, r; auto|]. rewrite Cs. f_equal. rewrite (tint_carried q r); auto. eapply begins_inside; exact Bq.
    Qed.

    Theorem realise : exists w, realises_by A T L el ic N oc M P w.
    Proof.
      destruct (choose_fun sink_dec sinks belt (FromInput 0)) as [w Hw]; [intros k _; apply belt_exists|].
      assert (Hb : forall k c, sink_colour el oc M k = Some c -> exists s f, start_of P (w k) = Some s /\ finish_of P k = Some f /\ joined A T L s f /\ source_colour el ic N (w k) = Some c).
      { intros k c Hk. apply (Hw k); [apply sinks_all; congruence|exact Hk]. }
      exists w. unfold realises_by. cbn [P pl_splitters pl_inputs pl_outputs].
      split; [apply (Forall2_len _ _ _ hs_ok)|]. split; [exact hs_nodup|]. split.
      { intros s Hs. apply In_nth_error in Hs. destruct Hs as [j Hj]. destruct (hs_nth _ _ Hj) as (nd & _ & I1 & I2 & d & T1 & T2 & N1 & _).
        split; [exact I1|]. split; [exact I2|]. exists d. auto. }
      split.
      { intros p d Hp Tp. destruct (hs_all p d Hp Tp) as [j Hj]. apply in_map_iff. exists (p, mate p). split; [reflexivity|]. eapply nth_error_In; exact Hj. }
      split; [reflexivity|]. split; [apply NoDup_filter; exact ND|]. split; [exact ins_enter|]. split.
      { intros p (_ & Hp & d & Tk & En). destruct (vi (V p) d) eqn:Ev; [left; eapply enter_ins; eauto|]. right.
        destruct (T p) as [| |i o|e b|e h|e k|x y] eqn:Tp; try contradiction; try exact Logic.I;
          rewrite (shows_takes_inv _ _ d (Sh p Hp)) in Ev; try discriminate; rewrite Tp; auto; intros []. }
      split; [reflexivity|]. split; [apply NoDup_filter; exact ND|]. split; [exact outs_leave|]. split.
      - split; [|split].
        + intros k c Hk. destruct (Hb k c Hk) as (s & f & _ & _ & _ & E). exact E.
        + intros k k' Nk Nk' Ew. destruct (sink_colour el oc M k) as [c|] eqn:Ek; [|contradiction]. destruct (sink_colour el oc M k') as [c'|] eqn:Ek'; [|contradiction].
          destruct (Hb _ _ Ek) as (s & f & E1 & E2 & J & _). destruct (Hb _ _ Ek') as (s' & f' & E1' & E2' & J' & _). rewrite Ew in E1. assert (s = s') by congruence. subst s'.
          assert (f = f') by (eapply joined_fun; [exact J|exact J']). subst f'. eapply finish_of_inj; eassumption.
        + intros src Ns. destruct (source_colour el ic N src) as [c|] eqn:Es; [|contradiction].
          destruct (source_begins src c Es) as (s & q & E1 & Bq & Uq & Cq). destruct (trace_forward A T L area_ok VL s q Bq) as (f & r & Cqr & Rf).
          assert (Hq : inside A q) by (eapply begins_inside; exact Bq).
          assert (Ur : forall d, is_splitter_tile (T r) -> takes (T r) d -> vi (V r) d = true).
          { intros d Sr Tk. destruct (carried_inv A T L q r Cqr) as [->|(y & [(Hy & Ny & e & Pe & Ee)|(_ & e & _ & Te & _)] & _)]; [auto| |rewrite Te in Sr; contradiction].
            assert (e = d). { eapply takes_fun; [|exact Tk]. eapply (received A T L VL); eauto. } subst e.
            rewrite <- (link y d r Hy Ee). apply (shows_pushes_inv _ _ _ (Sh y Hy) Pe Ny). }
          destruct (finish_used f r Rf Ur) as (k & Ek & Ck). exists k. split; [congruence|].
          destruct (Hb k _ Ck) as (s' & f' & E1' & E2' & J & _). assert (f' = f) by congruence. subst f'.
          assert (s' = s) by (eapply joined_inj; [exact area_ok|exact VL|exact J|]; exists q, r; auto). subst s'. eapply start_of_inj; eassumption.
      - intros k Nk. destruct (sink_colour el oc M k) as [c|] eqn:Ek; [|contradiction]. destruct (Hb _ _ Ek) as (s & f & E1 & E2 & J & _). exists s, f. auto.
    Qed.

    (** There are no other lines: a line that ends at an unused half is empty. *)
    Lemma other_lines w s f : realises_by A T L el ic N oc M P w -> joined A T L s f ->
      exists k, finish_of P k = Some f /\
        ((sink_colour el oc M k <> None /\ start_of P (w k) = Some s) \/
         (sink_colour el oc M k = None /\ exists p, f = Entrance p /\ begins A T s p)).
    Proof.
      intros Rz J. pose proof J as (q & r & Bq & Cqr & Rf).
      assert (Used : forall k, finish_of P k = Some f -> sink_colour el oc M k <> None -> start_of P (w k) = Some s).
      { intros k Ek Nk. destruct Rz as (_ & _ & _ & _ & _ & _ & _ & _ & _ & _ & _ & _ & Hj). destruct (Hj k Nk) as (s' & f' & E1 & E2 & J').
        assert (f' = f) by congruence. subst f'. rewrite E1. f_equal. eapply joined_inj; [exact area_ok|exact VL|exact J'|exact J]. }
      destruct f as [p|p].
      - destruct (finish_used (Leave p) r Rf) as (k & Ek & Ck); [intros d Sr; destruct Rf as (-> & _ & Nr & _); contradiction|].
        exists k. split; [exact Ek|]. left. assert (Nk : sink_colour el oc M k <> None) by congruence. auto.
      - destruct Rf as (-> & Hp & Sp). destruct (T p) as [| |? ?|? ?|d h|? ?|? ?] eqn:Tp; try contradiction.
        destruct (half_in p d h Hp Tp) as (j & st & Hj & Eh). destruct (hs_nth _ _ Hj) as (nd & Hnd & I1 & I2 & e & T1 & T2 & N1 & _).
        assert (e = d) by (destruct h; cbn [negb half] in Eh; congruence). subst e.
        assert (Ek : finish_of P (ToSplitter j (xorb (negb h) (fi j))) = Some (Entrance p)).
        { cbn [finish_of P pl_splitters pl_in]. rewrite Hj. cbn [option_map]. do 2 f_equal. rewrite Eh. f_equal. destruct h, (fi j); reflexivity. }
        exists (ToSplitter j (xorb (negb h) (fi j))). split; [exact Ek|].
        destruct (sink_colour el oc M (ToSplitter j (xorb (negb h) (fi j)))) as [c|] eqn:Ec; [left; split; [congruence|apply Used; [exact Ek|congruence]]|].
        right. split; [reflexivity|]. exists p. split; [reflexivity|].
        destruct (carried_inv A T L q p Cqr) as [<-|(y & [(Hy & Ny & e & Pe & Ee)|(_ & e & _ & Te & _)] & _)]; [exact Bq| |congruence].
        exfalso. cbn [sink_colour] in Ec. rewrite Hnd in Ec. pose proof (Hfi j st Hj nd d Hnd T1 (xorb (negb h) (fi j))) as Hm. rewrite Ec in Hm.
        replace (xorb (xorb (negb h) (fi j)) (fi j)) with (negb h) in Hm by (destruct h, (fi j); reflexivity). rewrite <- Eh in Hm.
        assert (e = d). { eapply takes_fun; [eapply (received A T L VL); eauto|]. rewrite Tp. reflexivity. } subst e.
        rewrite <- (link y d p Hy Ee) in Hm. rewrite (shows_pushes_inv _ _ _ (Sh y Hy) Pe Ny) in Hm. discriminate.
    Qed.
  End Flips.

  Lemma flips : exists fi fo,
    (forall j s, nth_error hs j = Some s -> forall nd d, nth_error (elements net) j = Some nd -> T (fst s) = Splitter d true -> forall b,
      match pick (fst nd) b with
      | Some c => vi (V (half s (xorb b (fi j)))) d = true /\ C (half s (xorb b (fi j))) = c
      | None => vi (V (half s (xorb b (fi j)))) d = false
      end) /\
    (forall j s, nth_error hs j = Some s -> forall nd d, nth_error (elements net) j = Some nd -> T (fst s) = Splitter d true -> forall b,
      exists q, neighbour A (half s (xorb b (fo j))) d = Some q /\
      match pick (snd nd) b with
      | Some c => vo (V (half s (xorb b (fo j)))) d = true /\ C q = c
      | None => vo (V (half s (xorb b (fo j)))) d = false
      end).
  Proof.
    assert (Z : forall j s nd, nth_error (combine hs (elements net)) j = Some (s, nd) -> head_ok s nd).
    { intros j s nd H. apply nth_error_In in H. pose proof hs_ok as F. revert H. clear - F. induction F as [|x y l k Hxy _ IH]; cbn; [intros []|]. intros [[= <- <-]|H]; auto. }
    assert (Y : forall j s nd, nth_error hs j = Some s -> nth_error (elements net) j = Some nd -> nth_error (combine hs (elements net)) j = Some (s, nd)).
    { intros j s nd. generalize hs as l, (elements net) as k. intros l. revert j. induction l as [|x l IH]; intros [|j] [|y k]; cbn; try discriminate; [congruence|]. apply IH. }
    destruct (choose_bits (combine hs (elements net)) (fun x f => forall d, T (fst (fst x)) = Splitter d true -> forall b,
      match pick (fst (snd x)) b with
      | Some c => vi (V (half (fst x) (xorb b f))) d = true /\ C (half (fst x) (xorb b f)) = c
      | None => vi (V (half (fst x) (xorb b f))) d = false
      end)) as [fi Hfi].
    { intros [s nd] Hx. apply In_nth_error in Hx. destruct Hx as [j Hj]. destruct (Z _ _ _ Hj) as (_ & _ & d & T1 & T2 & N1 & p10 & p01 & p11 & E10 & E01 & E11 & S1 & S2).
      cbn [fst snd] in *. rewrite N1 in E01. injection E01 as <-. destruct (side_flip _ _ _ _ _ S1) as [f Hf]. exists f. intros d' Td b. rewrite T1 in Td. injection Td as <-.
      specialize (Hf b). destruct (pick (fst nd) b); destruct (xorb b f); exact Hf. }
    destruct (choose_bits (combine hs (elements net)) (fun x f => forall d, T (fst (fst x)) = Splitter d true -> forall b,
      exists q, neighbour A (half (fst x) (xorb b f)) d = Some q /\
      match pick (snd (snd x)) b with
      | Some c => vo (V (half (fst x) (xorb b f))) d = true /\ C q = c
      | None => vo (V (half (fst x) (xorb b f))) d = false
      end)) as [fo Hfo].
    { intros [s nd] Hx. apply In_nth_error in Hx. destruct Hx as [j Hj]. destruct (Z _ _ _ Hj) as (_ & _ & d & T1 & T2 & N1 & p10 & p01 & p11 & E10 & E01 & E11 & S1 & S2).
      cbn [fst snd] in *. rewrite N1 in E01. injection E01 as <-. destruct (side_flip _ _ _ _ _ S2) as [f Hf]. exists f. intros d' Td b. rewrite T1 in Td. injection Td as <-.
      specialize (Hf b). destruct (pick (snd nd) b); destruct (xorb b f); [exists p11|exists p10|exists p11|exists p10]; (split; [assumption|exact Hf]). }
    exists fi, fo. split.
    - intros j s Hj nd d Hnd Td b. apply (Hfi j (s, nd) (Y _ _ _ Hj Hnd) d Td b).
    - intros j s Hj nd d Hnd Td b. apply (Hfo j (s, nd) (Y _ _ _ Hj Hnd) d Td b).
  Qed.

  Theorem realisation_at : exists P w, pl_splitters P = hs /\ realises_by A T L (elements net) ic (Z.to_nat n) oc (Z.to_nat m) P w /\
    forall s f, joined A T L s f ->
      exists k, finish_of P k = Some f /\
        ((sink_colour (elements net) oc (Z.to_nat m) k <> None /\ start_of P (w k) = Some s) \/
         (sink_colour (elements net) oc (Z.to_nat m) k = None /\ exists p, f = Entrance p /\ begins A T s p)).
  Proof.
    destruct flips as (fi & fo & Hfi & Hfo). destruct (realise fi fo Hfi Hfo) as [w Hw]. exists (P fi fo), w.
    pose proof ins_length. pose proof outs_length. replace (Z.to_nat n) with (List.length ins) by lia. replace (Z.to_nat m) with (List.length outs) by lia.
    split; [reflexivity|]. split; [exact Hw|]. intros s f J. apply (other_lines fi fo Hfi w s f Hw J).
  Qed.
  Theorem realisation : exists P w, realises_by A T L (elements net) ic (Z.to_nat n) oc (Z.to_nat m) P w /\
    forall s f, joined A T L s f ->
      exists k, finish_of P k = Some f /\
        ((sink_colour (elements net) oc (Z.to_nat m) k <> None /\ start_of P (w k) = Some s) \/
         (sink_colour (elements net) oc (Z.to_nat m) k = None /\ exists p, f = Entrance p /\ begins A T s p)).
  Proof. destruct realisation_at as (P0 & w & _ & H). exists P0, w. exact H. Qed.
End Realise.
