(** Symmetry breaking: the clauses of break_vertical_symmetry compare the upper
    half of the grid with the mirror image of the lower half; the image of a
    balancer under a symmetry of the rectangle is a balancer for the same
    network. *)
From Coq Require Import String ZArith QArith List Bool Lia.
From Verif Require Import Spec_Cnf Spec_Tile Spec_Layout Spec_Transform M_Json M_Tile M_Util M_Card M_Network Spec_Network M_Template M_Grid M_Balancer M_Optimise
  P_Cnf P_Util P_Util3 P_Card P_Tile P_Layout P_List P_Template P_Walk P_Grid P_GridSound P_GridComplete P_GridOk Spec_Balancer.
Import ListNotations.
Open Scope Z_scope.

(** * Lexicographic order *)
Lemma lex_le_prefix xs : forall ys s t, length xs = length ys -> lex_le (xs ++ s) (ys ++ t) = true -> lex_le xs ys = true.
Proof.
  induction xs as [|x xs IH]; intros [|y ys] s t H E; cbn [length] in H; try discriminate; [reflexivity|].
  cbn [app lex_le] in *. destruct x, y; cbn in *; try discriminate; try reflexivity; eapply IH; eauto.
Qed.
Lemma lex_le_total xs : forall ys, length xs = length ys -> lex_le xs ys = true \/ lex_le ys xs = true.
Proof.
  induction xs as [|x xs IH]; intros [|y ys] H; cbn in H; try discriminate; [left; reflexivity|].
  destruct (IH ys ltac:(congruence)) as [E|E]; cbn; rewrite E; destruct x, y; cbn; auto.
Qed.
Lemma lex_le_antisym xs : forall ys, length xs = length ys -> lex_le xs ys = true -> lex_le ys xs = true -> xs = ys.
Proof.
  induction xs as [|x xs IH]; intros [|y ys] H E F; cbn in H; try discriminate; [reflexivity|].
  cbn in E, F. destruct x, y; cbn in E, F; try discriminate; f_equal; apply IH; auto.
Qed.

(** * The lists that are compared *)
Section Lists.
  Variable g : grid.
  Hypothesis W : wf_grid g.
  Notation A := (garea g).
  Notation w := (width (geo g)).
  Notation h := (height (geo g)).

  Definition upper_row (y : Z) : list lit := flat_map (fun x => symmetry_top (tile_at g (x, y))) (range w).
  Definition lower_row (y : Z) : list lit := flat_map (fun x => symmetry_bottom (tile_at g (x, h - 1 - y))) (range w).

  Lemma top_eq t : symmetry_top t =
    [input_dir t RIGHT; input_dir t LEFT; output_dir t RIGHT; output_dir t LEFT; is_belt t; is_empty t; M_Grid.is_splitter t; is_underground_in t; is_underground_out t;
     input_dir t UP; output_dir t UP; input_dir t DOWN; output_dir t DOWN].
  Proof. reflexivity. Qed.
  Lemma bottom_eq t : symmetry_bottom t =
    [input_dir t RIGHT; input_dir t LEFT; output_dir t RIGHT; output_dir t LEFT; is_belt t; is_empty t; M_Grid.is_splitter t; is_underground_in t; is_underground_out t;
     input_dir t DOWN; output_dir t DOWN; input_dir t UP; output_dir t UP].
  Proof. reflexivity. Qed.

  Lemma row_lengths_gen (f k : Z -> list lit) l : (forall x, length (f x) = length (k x)) -> length (flat_map f l) = length (flat_map k l).
  Proof. intros H. induction l as [|x l IH]; [reflexivity|]. cbn [flat_map]. rewrite !app_length, H, IH. reflexivity. Qed.
  Lemma row_lengths y : length (upper_row y) = length (lower_row y).
  Proof. apply row_lengths_gen. intros x. rewrite top_eq, bottom_eq. reflexivity. Qed.

  Lemma cell_ok y x : 0 <= y < h -> In x (range w) -> inside A (x, y).
  Proof. intros Hy Hx. apply range_in in Hx. split; cbn; lia. Qed.
  Lemma upper_ok y : 0 <= y < h -> Forall (lit_ok (grid_size g)) (upper_row y).
  Proof.
    intros Hy. apply Forall_forall. intros l Hl. apply in_flat_map in Hl. destruct Hl as (x & Hx & Hl).
    pose proof (tile_at_lits g (x, y) W (cell_ok y x Hy Hx)) as K. rewrite top_eq in Hl. cbn [In] in Hl.
    repeat match goal with H : _ \/ _ |- _ => destruct H as [<- |H] end; try contradiction; apply K.
  Qed.
  Lemma lower_ok y : 0 <= y < h -> Forall (lit_ok (grid_size g)) (lower_row y).
  Proof.
    intros Hy. apply Forall_forall. intros l Hl. apply in_flat_map in Hl. destruct Hl as (x & Hx & Hl).
    pose proof (tile_at_lits g (x, h - 1 - y) W (cell_ok (h - 1 - y) x ltac:(lia) Hx)) as K. rewrite bottom_eq in Hl. cbn [In] in Hl.
    repeat match goal with H : _ \/ _ |- _ => destruct H as [<- |H] end; try contradiction; apply K.
  Qed.

  Lemma row_some y : 0 <= y < h -> symmetry_row g y = Some (upper_row y, lower_row y).
  Proof.
    intros Hy. pose proof W as ((Ww & Wh) & _). unfold symmetry_row, in_grid.
    repeat match goal with |- context [?u <=? ?v] => destruct (Z.leb_spec u v); [|lia] end.
    repeat match goal with |- context [?u <? ?v] => destruct (Z.ltb_spec u v); [|lia] end. reflexivity.
  Qed.

  Lemma lit_ok_forall n n' l : n <= n' -> Forall (lit_ok n) l -> Forall (lit_ok n') l.
  Proof. intros H. apply Forall_impl. intros x. apply lit_ok_mono. exact H. Qed.

  Lemma loop_ok : forall ys, ys <> [] -> (forall y, In y ys -> 0 <= y < h) -> forall top bot v, grid_size g <= v -> 0 <= v ->
    length top = length bot -> Forall (lit_ok (grid_size g)) top -> Forall (lit_ok (grid_size g)) bot ->
    enc_ok v (symmetry_loop g top bot ys v)
      (fun a => lex_le (values a (top ++ flat_map upper_row ys)) (values a (bot ++ flat_map lower_row ys)) = true).
  Proof.
    induction ys as [|y ys IH]; intros Ne Hys top bot v Hv Hv0 HL Ht Hb; [congruence|].
    assert (Hy : 0 <= y < h) by (apply Hys; left; reflexivity).
    assert (Ht' : Forall (lit_ok (grid_size g)) (top ++ upper_row y)) by (apply Forall_app; split; [exact Ht|apply upper_ok; exact Hy]).
    assert (Hb' : Forall (lit_ok (grid_size g)) (bot ++ lower_row y)) by (apply Forall_app; split; [exact Hb|apply lower_ok; exact Hy]).
    assert (HL' : length (top ++ upper_row y) = length (bot ++ lower_row y)) by (rewrite !app_length, HL, row_lengths; reflexivity).
    destruct (break_symmetry_ok (top ++ upper_row y) (bot ++ lower_row y) v HL' Hv0 (lit_ok_forall _ _ _ Hv Ht') (lit_ok_forall _ _ _ Hv Hb')) as (cs & v1 & E1 & Hv1 & K1 & S1 & C1).
    destruct ys as [|y' ys].
    - exists (cs ++ []), v1. split; [cbn [symmetry_loop]; rewrite (row_some y Hy); cbn [obind]; rewrite E1; reflexivity|].
      split; [exact Hv1|]. rewrite app_nil_r. split; [exact K1|]. cbn [flat_map]. rewrite !app_nil_r. split; assumption.
    - destruct (IH ltac:(discriminate) (fun z Hz => Hys z (or_intror Hz)) (top ++ upper_row y) (bot ++ lower_row y) v1 ltac:(lia) ltac:(lia) HL' Ht' Hb') as (cs' & v2 & E2 & Hv2 & K2 & S2 & C2).
      exists (cs ++ cs'), v2. split.
      { change (symmetry_loop g top bot (y :: y' :: ys) v) with
          (obind (symmetry_row g y) (fun tb => let (t, b) := tb in obind (break_symmetry (top ++ t)%list (bot ++ b)%list v) (fun cv => let (cs0, v3) := cv in
             obind (symmetry_loop g (top ++ t)%list (bot ++ b)%list (y' :: ys) v3) (fun cv' => let (cs1, v4) := cv' in Some ((cs0 ++ cs1)%list, v4))))).
        rewrite (row_some y Hy). cbn [obind]. rewrite E1. cbn [obind]. rewrite E2. reflexivity. }
      split; [lia|]. split; [apply cnf_ok_app; [eapply cnf_ok_mono; [exact Hv2|exact K1]|exact K2]|].
      rewrite <- !app_assoc in S2, C2. change (flat_map upper_row (y :: y' :: ys)) with (upper_row y ++ flat_map upper_row (y' :: ys)).
      change (flat_map lower_row (y :: y' :: ys)) with (lower_row y ++ flat_map lower_row (y' :: ys)). split.
      + intros a Ha. apply sat_app_iff in Ha. apply S2. apply Ha.
      + intros a Ha. destruct (C1 a) as (b & Ab & Sb).
        { apply (lex_le_prefix _ _ (values a (flat_map upper_row (y' :: ys))) (values a (flat_map lower_row (y' :: ys)))).
          - unfold values. rewrite !map_length. exact HL'.
          - unfold values in *. rewrite <- !map_app, <- !app_assoc. exact Ha. }
        assert (VE : forall l, Forall (lit_ok (grid_size g)) l -> values b l = values a l).
        { intros l Hl. symmetry. apply values_agree with (n := v); [exact Ab|]. eapply lit_ok_forall; [exact Hv|exact Hl]. }
        assert (RowsOk : Forall (lit_ok (grid_size g)) (flat_map upper_row (y' :: ys)) /\ Forall (lit_ok (grid_size g)) (flat_map lower_row (y' :: ys))).
        { split; apply Forall_forall; intros l Hl; apply in_flat_map in Hl; destruct Hl as (z & Hz & Hl);
            [eapply (proj1 (Forall_forall _ _) (upper_ok z (Hys z (or_intror Hz))))|eapply (proj1 (Forall_forall _ _) (lower_ok z (Hys z (or_intror Hz))))]; exact Hl. }
        destruct (C2 b) as (c & Ac & Sc).
        { rewrite !VE; [exact Ha| |]; rewrite !app_assoc; apply Forall_app; split; auto; apply RowsOk. }
        exists c. split; [eapply agree_trans; [exact Ab|eapply agree_mono; [exact Hv1|exact Ac]]|].
        apply sat_app_iff. split; [|exact Sc]. rewrite <- (sat_agree v1 b c cs Ac K1). exact Sb.
  Qed.

  Definition compared_rows : list Z := range (Z.max 2 (h / 2)).
  Definition upper_half : list lit := flat_map upper_row compared_rows.
  Definition lower_half : list lit := flat_map lower_row compared_rows.
  Lemma compared_in y : 2 <= h -> In y compared_rows -> 0 <= y < h.
  Proof. intros Hh Hy. apply range_in in Hy. assert (h / 2 <= h) by (apply Z.div_le_upper_bound; lia). lia. Qed.
  Lemma half_lengths : length upper_half = length lower_half.
  Proof. apply row_lengths_gen. apply row_lengths. Qed.

  Lemma halves_ok : 2 <= h -> Forall (lit_ok (grid_size g)) (upper_half ++ lower_half).
  Proof.
    intros Hh. apply Forall_app. split; apply Forall_forall; intros l Hl; apply in_flat_map in Hl; destruct Hl as (y & Hy & Hl); apply (compared_in y Hh) in Hy.
    - exact (proj1 (Forall_forall _ _) (upper_ok y Hy) l Hl).
    - exact (proj1 (Forall_forall _ _) (lower_ok y Hy) l Hl).
  Qed.
  Lemma break_vertical_ok v : 2 <= h -> grid_size g <= v -> 0 <= v ->
    enc_ok v (break_vertical_symmetry g v) (fun a => lex_le (values a upper_half) (values a lower_half) = true).
  Proof.
    intros Hh Hv Hv0. apply (loop_ok compared_rows) with (top := []) (bot := []); auto.
    - unfold compared_rows, range. destruct (Z.to_nat (Z.max 2 (h / 2))) eqn:E; [lia|discriminate].
    - intros y. apply compared_in. exact Hh.
  Qed.
End Lists.

(** * Mirror images of solutions *)
Definition upside_down (g : grid) (p : pos) : pos := image_pos MirrorY (garea g) p.
Lemma upside_down_eq g x y : upside_down g (x, y) = (x, height (geo g) - 1 - y).
Proof. reflexivity. Qed.
Lemma upside_down_twice g p : upside_down g (upside_down g p) = p.
Proof. destruct p as [x y]. rewrite !upside_down_eq. f_equal. lia. Qed.
Lemma upside_down_inside g p : inside (garea g) p -> inside (garea g) (upside_down g p).
Proof. apply (image_inside MirrorY). Qed.

(** In [m] the tile at each position has the kind and the connections that the
    tile at the mirrored position has in [a], with up and down exchanged. *)
Definition mirrored_solution (g : grid) (a m : assignment) : Prop := forall p, inside (garea g) p ->
  let t := tile_at g p in let s := tile_at g (upside_down g p) in
  evl m (is_belt t) = evl a (is_belt s) /\ evl m (is_empty t) = evl a (is_empty s) /\
  evl m (M_Grid.is_splitter t) = evl a (M_Grid.is_splitter s) /\
  evl m (is_underground_in t) = evl a (is_underground_in s) /\ evl m (is_underground_out t) = evl a (is_underground_out s) /\
  forall d, evl m (input_dir t d) = evl a (input_dir s (image_dir MirrorY d)) /\ evl m (output_dir t d) = evl a (output_dir s (image_dir MirrorY d)).

Lemma mirrored_sym g a m : mirrored_solution g a m -> mirrored_solution g m a.
Proof.
  intros H p Hp. destruct (H (upside_down g p) (upside_down_inside g p Hp)) as (H1 & H2 & H3 & H4 & H5 & H6).
  rewrite upside_down_twice in *. repeat split; try (symmetry; assumption).
  - destruct (H6 (image_dir MirrorY d)) as [X _]. rewrite X. destruct d; reflexivity.
  - destruct (H6 (image_dir MirrorY d)) as [_ X]. rewrite X. destruct d; reflexivity.
Qed.

Lemma values_flat_map {X} a (f : X -> list lit) l : values a (flat_map f l) = flat_map (fun x => values a (f x)) l.
Proof. unfold values. induction l as [|x l IH]; [reflexivity|]. cbn [flat_map]. rewrite map_app, IH. reflexivity. Qed.
Lemma flat_map_same {X Y} (f k : X -> list Y) l : (forall x, In x l -> f x = k x) -> flat_map f l = flat_map k l.
Proof. intros H. induction l as [|x l IH]; [reflexivity|]. cbn [flat_map]. rewrite (H x (or_introl eq_refl)), IH; [reflexivity|]. intros y Hy. apply H. right. exact Hy. Qed.

Section Mirrored.
  Variable g : grid.
  Hypothesis W : wf_grid g.
  Hypothesis Hh : 2 <= height (geo g).

  Lemma mirrored_cell a m p : mirrored_solution g a m -> inside (garea g) p ->
    values m (symmetry_top (tile_at g p)) = values a (symmetry_bottom (tile_at g (upside_down g p))).
  Proof.
    intros M Hp. destruct (M p Hp) as (H1 & H2 & H3 & H4 & H5 & H6). rewrite top_eq, bottom_eq. cbn [values map].
    rewrite H1, H2, H3, H4, H5. rewrite !(proj1 (H6 _)), !(proj2 (H6 _)). reflexivity.
  Qed.
  Lemma mirrored_half a m : mirrored_solution g a m -> values m (upper_half g) = values a (lower_half g).
  Proof.
    intros M. unfold upper_half, lower_half, upper_row, lower_row. rewrite !values_flat_map. apply flat_map_same. intros y Hy. apply (compared_in g) in Hy; [|exact Hh].
    rewrite !values_flat_map. apply flat_map_same. intros x Hx. apply (mirrored_cell a m (x, y) M). apply cell_ok; assumption.
  Qed.

  Lemma app_inv_length {X} (x : list X) : forall y s t, length x = length y -> x ++ s = y ++ t -> x = y /\ s = t.
  Proof. induction x as [|u x IH]; intros [|v y] s t HL E; cbn in HL; try discriminate; [auto|]. injection E as -> E. destruct (IH y s t ltac:(congruence) E) as [-> ->]. auto. Qed.
  Lemma flat_map_inv {X} (f k : X -> list bool) l : (forall x, length (f x) = length (k x)) -> flat_map f l = flat_map k l -> forall x, In x l -> f x = k x.
  Proof.
    intros HL. induction l as [|z l IH]; intros E x Hx; [destruct Hx|]. cbn [flat_map] in E. apply app_inv_length in E; [|apply HL].
    destruct Hx as [<-|Hx]; [apply E|apply IH; [apply E|exact Hx]].
  Qed.
  (** The compared lists are equal only if the compared rows are symmetric. *)
  Lemma halves_equal a : values a (upper_half g) = values a (lower_half g) ->
    forall x y, In y (compared_rows g) -> 0 <= x < width (geo g) ->
    values a (symmetry_top (tile_at g (x, y))) = values a (symmetry_bottom (tile_at g (x, height (geo g) - 1 - y))).
  Proof.
    intros E x y Hy Hx. unfold upper_half, lower_half in E. rewrite !values_flat_map in E.
    assert (E' : values a (upper_row g y) = values a (lower_row g y)).
    { apply (flat_map_inv (fun z => values a (upper_row g z)) (fun z => values a (lower_row g z)) (compared_rows g)); [|exact E|exact Hy].
      intros z. unfold values. rewrite !map_length. apply row_lengths. }
    clear E. rename E' into E.
    unfold upper_row, lower_row in E. rewrite !values_flat_map in E.
    apply (flat_map_inv (fun x => values a (symmetry_top (tile_at g (x, y)))) (fun x => values a (symmetry_bottom (tile_at g (x, height (geo g) - 1 - y)))) (range (width (geo g)))); [|exact E|apply range_in; exact Hx].
    intros z. unfold values. rewrite !map_length. reflexivity.
  Qed.
End Mirrored.

(** * Images of balancers *)
Section Image.
  Context {A A' : area} {T T' : layout} {phi : pos -> pos} {delta : dir -> dir} {fl : bool}.
  Hypothesis E : equivariant A A' T T' phi delta fl.
  Hypothesis Inj : forall p q, phi p = phi q -> p = q.
  Hypothesis WA : wf_area A.

  Lemma i_neighbour p d : inside A p -> neighbour A' (phi p) (delta d) = option_map phi (neighbour A p d).
  Proof. apply (eq_ahead _ _ _ _ _ _ _ E). Qed.
  Lemma i_under p d e : inside A p -> T p = Underground d e -> T' (phi p) = Underground (delta d) e.
  Proof. intros Hp H. rewrite (eq_tile _ _ _ _ _ _ _ E p Hp), H. reflexivity. Qed.
  Lemma i_splitter p d b : inside A p -> T p = Splitter d b -> T' (phi p) = Splitter (delta d) (xorb fl b).
  Proof. intros Hp H. rewrite (eq_tile _ _ _ _ _ _ _ E p Hp), H. reflexivity. Qed.

  Lemma i_carried L p q : carried A T L p q -> carried A' T' L (phi p) (phi q).
  Proof.
    intros H. induction H as [p|p q r (Hp & Ns & d & Ps & Nb) _ IH|p q r (Hp & d & Tp & Tq & Tn) _ IH]; [constructor| |].
    - eapply carried_belt; [|exact IH]. split; [apply (eq_in _ _ _ _ _ _ _ E); exact Hp|]. split; [rewrite (e_split E) by exact Hp; exact Ns|].
      exists (delta d). split; [apply (e_pushes E); assumption|]. rewrite i_neighbour, Nb by exact Hp. reflexivity.
    - eapply carried_under; [|exact IH]. split; [apply (eq_in _ _ _ _ _ _ _ E); exact Hp|]. exists (delta d).
      assert (Hq : inside A q) by (destruct Tn as (k & _ & Ha & _); eapply ahead_inside; exact Ha).
      split; [apply i_under; assumption|]. split; [apply i_under; assumption|]. apply (e_tunnel E); assumption.
  Qed.

  Definition i_start (s : start) : start := match s with Enter p => Enter (phi p) | Exit p => Exit (phi p) end.
  Definition i_finish (f : finish) : finish := match f with Leave p => Leave (phi p) | Entrance p => Entrance (phi p) end.
  Lemma i_begins s q : begins A T s q -> begins A' T' (i_start s) (phi q).
  Proof.
    destruct s as [p|p]; cbn [i_start begins].
    - intros (-> & Hp & d & Tk & Nb). split; [reflexivity|]. split; [apply (eq_in _ _ _ _ _ _ _ E); exact Hp|]. exists (delta d).
      split; [apply (e_takes E); assumption|]. rewrite <- (eq_opp _ _ _ _ _ _ _ E), i_neighbour, Nb by exact Hp. reflexivity.
    - intros (Hp & d & b & Tp & Nb & Tk). split; [apply (eq_in _ _ _ _ _ _ _ E); exact Hp|]. exists (delta d), (xorb fl b).
      split; [apply i_splitter; assumption|]. split; [rewrite i_neighbour, Nb by exact Hp; reflexivity|].
      apply (e_takes E); [|exact Tk]. eapply ahead_inside. exact Nb.
  Qed.
  Lemma i_reaches f r : reaches A T f r -> reaches A' T' (i_finish f) (phi r).
  Proof.
    destruct f as [p|p]; cbn [i_finish reaches].
    - intros (-> & Hp & Ns & d & Ps & Nb). split; [reflexivity|]. split; [apply (eq_in _ _ _ _ _ _ _ E); exact Hp|].
      split; [rewrite (e_split E) by exact Hp; exact Ns|]. exists (delta d). split; [apply (e_pushes E); assumption|].
      rewrite i_neighbour, Nb by exact Hp. reflexivity.
    - intros (-> & Hp & S). split; [reflexivity|]. split; [apply (eq_in _ _ _ _ _ _ _ E); exact Hp|]. apply (e_split E); assumption.
  Qed.
  Lemma i_joined L s f : joined A T L s f -> joined A' T' L (i_start s) (i_finish f).
  Proof. intros (q & r & B & C & R). exists (phi q), (phi r). split; [apply i_begins; exact B|]. split; [apply i_carried; exact C|apply i_reaches; exact R]. Qed.
  Lemma i_enter_inv q : begins A' T' (Enter q) q -> exists p, q = phi p /\ begins A T (Enter p) p.
  Proof.
    intros (_ & Hq & d & Tk & Nb). destruct (eq_surj _ _ _ _ _ _ _ E q Hq) as (p & Hp & <-). destruct (eq_dsurj _ _ _ _ _ _ _ E d) as (d0 & <-).
    exists p. split; [reflexivity|]. split; [reflexivity|]. split; [exact Hp|]. exists d0. split; [apply (e_takes E); assumption|].
    rewrite <- (eq_opp _ _ _ _ _ _ _ E), i_neighbour in Nb by exact Hp. destruct (neighbour A p (opposite d0)); [discriminate|reflexivity].
  Qed.
  Lemma i_leave_inv q : reaches A' T' (Leave q) q -> exists p, q = phi p /\ reaches A T (Leave p) p.
  Proof.
    intros (_ & Hq & Ns & d & Ps & Nb). destruct (eq_surj _ _ _ _ _ _ _ E q Hq) as (p & Hp & <-). destruct (eq_dsurj _ _ _ _ _ _ _ E d) as (d0 & <-).
    exists p. split; [reflexivity|]. split; [reflexivity|]. split; [exact Hp|]. split; [rewrite <- (e_split E) by exact Hp; exact Ns|].
    exists d0. split; [apply (e_pushes E); assumption|].
    rewrite i_neighbour in Nb by exact Hp. destruct (neighbour A p d0); [discriminate|reflexivity].
  Qed.

  Definition i_pair (s : pos * pos) : pos * pos := (phi (half s fl), phi (half s (negb fl))).
  Lemma i_half s b : half (i_pair s) (xorb b fl) = phi (half s b).
  Proof. unfold i_pair. destruct b, fl; reflexivity. Qed.
  Lemma i_half' s b : half (i_pair s) b = phi (half s (xorb b fl)).
  Proof. unfold i_pair. destruct b, fl; reflexivity. Qed.
  Lemma i_splitter_at s : is_splitter_at A T s -> is_splitter_at A' T' (i_pair s).
  Proof.
    intros (H1 & H2 & d & T1 & T2 & Nb). unfold is_splitter_at, i_pair. cbn [fst snd].
    split; [apply (eq_in _ _ _ _ _ _ _ E); destruct fl; assumption|]. split; [apply (eq_in _ _ _ _ _ _ _ E); destruct fl; assumption|].
    pose proof (i_splitter _ _ _ H1 T1) as S1. pose proof (i_splitter _ _ _ H2 T2) as S2.
    pose proof (eq_c _ _ _ _ _ _ _ E d) as Ec. pose proof (eq_ac _ _ _ _ _ _ _ E d) as Ea.
    pose proof (i_neighbour (snd s) (clockwise d) H2) as N2. pose proof (i_neighbour (fst s) (anticlockwise d) H1) as N1.
    exists (delta d). destruct fl; cbn [half negb xorb mate_side] in *.
    - split; [exact S2|]. split; [exact S1|]. rewrite <- Ec, N2.
      replace (clockwise d) with (opposite (anticlockwise d)) by (destruct d; reflexivity).
      rewrite (neighbour_back A (fst s) (anticlockwise d) (snd s) WA H1 Nb). reflexivity.
    - split; [exact S1|]. split; [exact S2|]. rewrite <- Ea, N1, Nb. reflexivity.
  Qed.

  Definition i_placement (P : placement) : placement := {|
    pl_splitters := map i_pair (pl_splitters P);
    pl_in := fun i => xorb (pl_in P i) fl; pl_out := fun i => xorb (pl_out P i) fl;
    pl_inputs := map phi (pl_inputs P); pl_outputs := map phi (pl_outputs P) |}.
  Lemma i_start_of P s : start_of (i_placement P) s = option_map i_start (start_of P s).
  Proof.
    destruct s as [j|i b]; cbn [start_of i_placement pl_inputs pl_splitters pl_out]; rewrite nth_error_map.
    - destruct (nth_error (pl_inputs P) j); reflexivity.
    - destruct (nth_error (pl_splitters P) i); [|reflexivity]. cbn [option_map i_start]. rewrite i_half'. replace (xorb (xorb b (xorb (pl_out P i) fl)) fl) with (xorb b (pl_out P i)) by (destruct b, (pl_out P i), fl; reflexivity). reflexivity.
  Qed.
  Lemma i_finish_of P k : finish_of (i_placement P) k = option_map i_finish (finish_of P k).
  Proof.
    destruct k as [j|i b]; cbn [finish_of i_placement pl_outputs pl_splitters pl_in]; rewrite nth_error_map.
    - destruct (nth_error (pl_outputs P) j); reflexivity.
    - destruct (nth_error (pl_splitters P) i); [|reflexivity]. cbn [option_map i_finish]. rewrite i_half'. replace (xorb (xorb b (xorb (pl_in P i) fl)) fl) with (xorb b (pl_in P i)) by (destruct b, (pl_in P i), fl; reflexivity). reflexivity.
  Qed.

  Lemma NoDup_map_phi l : NoDup l -> NoDup (map phi l).
  Proof.
    induction 1 as [|x l N _ IH]; [constructor|]. cbn [map]. constructor; [|exact IH]. intros H. apply in_map_iff in H. destruct H as (y & Ey & Hy). apply Inj in Ey. congruence.
  Qed.

  (** The splitters are listed by their heads; in a mirror image the other half
      is the head. *)
  Lemma snd_NoDup l : (forall s, In s l -> is_splitter_at A T s) -> NoDup (map fst l) -> NoDup (map snd l).
  Proof.
    induction l as [|s l IH]; intros H N; [constructor|]. cbn [map] in *. inversion N as [|? ? Ni Nl]; subst. constructor; [|apply IH; [intros; apply H; right; assumption|exact Nl]].
    intros Hi. apply in_map_iff in Hi. destruct Hi as (s' & Es & Hs'). apply Ni.
    destruct (H s (or_introl eq_refl)) as (H1 & H2 & d & T1 & T2 & Nb). destruct (H s' (or_intror Hs')) as (H1' & H2' & d' & T1' & T2' & Nb').
    rewrite Es, T2 in T2'. injection T2' as <-.
    pose proof (neighbour_back A _ _ _ WA H1 Nb) as B. pose proof (neighbour_back A _ _ _ WA H1' Nb') as B'. rewrite Es in B'. rewrite B in B'. injection B' as B'.
    rewrite B'. apply in_map. exact Hs'.
  Qed.

  Lemma i_realises_by L net ic n oc m P wire : splitters_paired A T -> realises_by A T L net ic n oc m P wire ->
    realises_by A' T' L net ic n oc m (i_placement P) wire.
  Proof.
    intros VP (R1 & R2 & R3 & R4 & R5 & R6 & R7 & R8 & R9 & R10 & R11 & R12 & R13).
    unfold realises_by. cbn [i_placement pl_splitters pl_inputs pl_outputs]. rewrite !map_length.
    split; [exact R1|]. split.
    { rewrite map_map. unfold i_pair. cbn [fst]. rewrite <- (map_map (fun s => half s fl) phi). apply NoDup_map_phi. destruct fl; [|exact R2].
      change (NoDup (map snd (pl_splitters P))). apply snd_NoDup; assumption. }
    split. { intros s Hs. apply in_map_iff in Hs. destruct Hs as (s0 & <- & Hs). apply i_splitter_at, R3, Hs. }
    split.
    { intros q d' Hq Tq. destruct (eq_surj _ _ _ _ _ _ _ E q Hq) as (p & Hp & <-).
      rewrite (eq_tile _ _ _ _ _ _ _ E p Hp) in Tq. destruct (T p) as [| |i o|u e|u e|u e|x y] eqn:Tp; try discriminate. injection Tq as _ He.
      assert (K : exists s, In s (pl_splitters P) /\ half s fl = p).
      { destruct (xorb fl e) eqn:Ex; [|discriminate]. destruct e.
        - specialize (R4 p u Hp Tp). apply in_map_iff in R4. destruct R4 as (s & <- & Hs). exists s. split; [exact Hs|]. destruct fl; [discriminate|reflexivity].
        - destruct (VP p u false Hp Tp) as (r & Nr & Tr). cbn [negb mate_side] in Nr, Tr. assert (Hr : inside A r) by (eapply ahead_inside; exact Nr).
          specialize (R4 r u Hr Tr). apply in_map_iff in R4. destruct R4 as (s & <- & Hs). exists s. split; [exact Hs|]. destruct fl; [|discriminate]. cbn [half].
          destruct (R3 s Hs) as (_ & _ & d0 & T1 & _ & Nb). rewrite Tr in T1. injection T1 as <-.
          pose proof (neighbour_back A _ _ _ WA Hp Nr) as B. replace (opposite (clockwise u)) with (anticlockwise u) in B by (destruct u; reflexivity).
          rewrite Nb in B. injection B as B. exact B. }
      destruct K as (s & Hs & <-). rewrite map_map. apply in_map_iff. exists s. split; [reflexivity|exact Hs]. }
    split; [exact R5|]. split; [apply NoDup_map_phi; exact R6|].
    split. { intros q Hq. apply in_map_iff in Hq. destruct Hq as (p & <- & Hp). apply (i_begins (Enter p)). apply R7, Hp. }
    split.
    { intros q Hq. destruct (i_enter_inv q Hq) as (p & -> & Hp). destruct (R8 p Hp) as [H|H]; [left; apply in_map; exact H|right].
      apply (e_split E); [apply Hp|exact H]. }
    split; [exact R9|]. split; [apply NoDup_map_phi; exact R10|].
    split.
    { intros q. split.
      - intros Hq. apply in_map_iff in Hq. destruct Hq as (p & <- & Hp). apply (i_reaches (Leave p)). apply R11, Hp.
      - intros Hq. destruct (i_leave_inv q Hq) as (p & -> & Hp). apply in_map, R11, Hp. }
    split; [exact R12|]. intros k Hk. destruct (R13 k Hk) as (s & f & Es & Ef & J). exists (i_start s), (i_finish f).
    rewrite i_start_of, i_finish_of, Es, Ef. split; [reflexivity|]. split; [reflexivity|]. apply i_joined, J.
  Qed.
End Image.

Lemma image_pos_inj s A p q : image_pos s A p = image_pos s A q -> p = q.
Proof. intros H. rewrite <- (inv_sym_pos s A p), <- (inv_sym_pos s A q), H. reflexivity. Qed.

(** Every symmetry of the rectangle keeps a layout of a network one. *)
Lemma realises_symmetric s A T T' L net ic n oc m : 0 < aw A -> 0 < ah A ->
  (forall p, inside A p -> T' (image_pos s A p) = image_tile s (T p)) -> splitters_paired A T ->
  realises A T L net ic n oc m -> realises (image_area s A) T' L net ic n oc m.
Proof.
  intros Hw Hh HT VP (P & wire & R). eexists _, wire.
  apply (i_realises_by (equivariant_of_sym s A T T' Hw Hh HT) (image_pos_inj s A) (conj Hw Hh) L net ic n oc m P wire VP R).
Qed.

Lemma image_back s A T T' : (forall p, inside A p -> T' (image_pos s A p) = image_tile s (T p)) ->
  forall q, inside (image_area s A) q -> T (image_pos (inv_sym s) (image_area s A) q) = image_tile (inv_sym s) (T' q).
Proof.
  intros HT q Hq. set (p := image_pos (inv_sym s) (image_area s A) q).
  assert (Hp : inside A p) by (unfold p; rewrite <- (inv_sym_area s A) at 1; apply image_inside; assumption).
  assert (Eq : q = image_pos s A p).
  { unfold p. pose proof (inv_sym_pos (inv_sym s) (image_area s A) q) as H. rewrite inv_sym_sym, inv_sym_area in H. symmetry. exact H. }
  rewrite Eq, HT by assumption. rewrite image_tile_inv. reflexivity.
Qed.
Lemma image_area_pos s A : 0 < aw A -> 0 < ah A -> 0 < aw (image_area s A) /\ 0 < ah (image_area s A).
Proof. destruct s; cbn; auto. Qed.

Lemma realises_symmetric_iff s A T T' L net ic n oc m : 0 < aw A -> 0 < ah A ->
  (forall p, inside A p -> T' (image_pos s A p) = image_tile s (T p)) -> valid_layout A T L ->
  (realises A T L net ic n oc m <-> realises (image_area s A) T' L net ic n oc m).
Proof.
  intros Hw Hh HT VL. split; [apply realises_symmetric; auto; apply VL|]. intros R.
  pose proof (proj1 (valid_symmetric s A T T' L Hw Hh HT) VL) as V'. destruct (image_area_pos s A Hw Hh) as [H1 H2].
  rewrite <- (inv_sym_area s A). apply (realises_symmetric (inv_sym s) (image_area s A) T' T L net ic n oc m H1 H2); [apply image_back; exact HT|apply V'|exact R].
Qed.

Lemma balanced_symmetric s A T T' L : 0 < aw A -> 0 < ah A ->
  (forall p, inside A p -> T' (image_pos s A p) = image_tile s (T p)) ->
  balanced_layout A T L -> balanced_layout (image_area s A) T' L.
Proof.
  intros Hw Hh HT B into from ins outs [St1 St2] [Ni Hi] [No Ho] q Hq.
  pose proof (equivariant_of_sym s A T T' Hw Hh HT) as E. set (phi := image_pos s A) in *. set (psi := image_pos (inv_sym s) (image_area s A)).
  assert (PP : forall r, phi (psi r) = r).
  { intros r. unfold phi, psi. pose proof (inv_sym_pos (inv_sym s) (image_area s A) r) as H. rewrite inv_sym_sym, inv_sym_area in H. exact H. }
  assert (QQ : forall r, psi (phi r) = r) by (intros r; apply inv_sym_pos).
  assert (Nd : forall l, NoDup l -> NoDup (map psi l)).
  { induction 1 as [|x l N _ IH]; [constructor|]. cbn [map]. constructor; [|exact IH]. intros H. apply in_map_iff in H. destruct H as (y & Ey & Hy).
    apply N. rewrite <- (PP x), <- Ey, PP. exact Hy. }
  assert (W : wf_area A) by (split; assumption).
  pose proof (B (fun u => into (@i_start phi u)) (fun f => from (@i_finish phi f)) (map psi ins) (map psi outs)) as K.
  assert (St : steady_layout A T L (fun u => into (@i_start phi u)) (fun f => from (@i_finish phi f))).
  { split.
    - intros u f J. apply St1. apply (i_joined E). exact J.
    - intros sp Hs. apply (i_splitter_at E W) in Hs. apply St2 in Hs. unfold i_pair in Hs. cbn [fst snd i_start i_finish] in *. destruct (mirrors s); cbn [half negb] in Hs; destruct Hs as [E1 E2].
      + split; [symmetry; exact E1|]. rewrite (Qplus_comm (into (Exit (phi (fst sp))))), (Qplus_comm (from (Entrance (phi (fst sp))))). exact E2.
      + split; assumption. }
  assert (In' : inlets A T (map psi ins)).
  { split; [apply Nd; exact Ni|]. intros p. split.
    - intros H. apply in_map_iff in H. destruct H as (r & <- & Hr). apply Hi in Hr. destruct (i_enter_inv E r Hr) as (p & -> & Hp). rewrite QQ. exact Hp.
    - intros H. apply (i_begins E (Enter p)) in H. apply Hi in H. rewrite <- (QQ p). apply in_map. exact H. }
  assert (Out' : outlets A T (map psi outs)).
  { split; [apply Nd; exact No|]. intros p. split.
    - intros H. apply in_map_iff in H. destruct H as (r & <- & Hr). apply Ho in Hr. destruct (i_leave_inv E r Hr) as (p & -> & Hp). rewrite QQ. exact Hp.
    - intros H. apply (i_reaches E (Leave p)) in H. apply Ho in H. rewrite <- (QQ p). apply in_map. exact H. }
  specialize (K St In' Out' (psi q) (in_map psi _ _ Hq)). rewrite map_length, map_map in K. cbn [i_start i_finish] in K. rewrite PP in K.
  rewrite K. rewrite (map_ext (fun x => into (Enter (phi (psi x)))) (fun x => into (Enter x))) by (intros r; rewrite PP; reflexivity). reflexivity.
Qed.
Lemma balanced_symmetric_iff s A T T' L : 0 < aw A -> 0 < ah A ->
  (forall p, inside A p -> T' (image_pos s A p) = image_tile s (T p)) ->
  (balanced_layout A T L <-> balanced_layout (image_area s A) T' L).
Proof.
  intros Hw Hh HT. split; [apply balanced_symmetric; assumption|]. intros B. destruct (image_area_pos s A Hw Hh) as [H1 H2].
  rewrite <- (inv_sym_area s A). apply (balanced_symmetric (inv_sym s) (image_area s A) T' T L H1 H2); [apply image_back; exact HT|exact B].
Qed.
