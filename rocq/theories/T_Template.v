(** C39-C43, C59: allocation, geometry, enumeration and the solver interface. *)
From Coq Require Import String Ascii ZArith List Bool Lia.
From Verif Require Import Spec_Cnf Spec_Tile Spec_Layout M_Json M_Tile M_Util M_Card M_Template M_Grid M_Solve
  P_List P_Cnf P_Template P_Grid P_Allocate P_Solve.
Import ListNotations.
Local Open Scope string_scope.
Open Scope Z_scope.

(** ** C39 *)
(** The variables of all the tiles of a [w] x [h] grid over any template, in
    row-major order, are the next [h * w * variable_count] numbers of the pool,
    each once. *)
Theorem C39_variables_contiguous t h w top :
  let vs := flat_map (flat_map flatten) (fst (instantiate_rows t h w top)) in
  let n := Z.of_nat (h * w * variable_count t) in
  snd (instantiate_rows t h w top) = top + n /\
  NoDup vs /\ (forall v, In v vs <-> top + 1 <= v <= top + n).
Proof.
  destruct (instantiate_rows_spec t h w top) as (E & _ & F & _). cbn zeta. rewrite F. split; [exact E|].
  split; [apply fresh_NoDup|]. intros v. rewrite fresh_In. lia.
Qed.

(** Two tiles, at different positions, share no variable; each has
    [variable_count] of them. *)
Theorem C39_tiles_disjoint t h w top x y x' y' i i' : 0 <= w -> 0 <= h ->
  0 <= x < w -> 0 <= y < h -> 0 <= x' < w -> 0 <= y' < h ->
  tile_instance (fst (instantiate_rows t (Z.to_nat h) (Z.to_nat w) top)) x y = Some i ->
  tile_instance (fst (instantiate_rows t (Z.to_nat h) (Z.to_nat w) top)) x' y' = Some i' ->
  NoDup (flatten i) /\ length (flatten i) = variable_count t /\
  ((x, y) <> (x', y') -> forall v, In v (flatten i) -> In v (flatten i') -> False).
Proof.
  intros _ _ Hx Hy Hx' Hy' E E'. rewrite tile_instance_spec in E, E' by assumption.
  injection E as <-. injection E' as <-.
  rewrite !(proj2 (instantiate_fresh t _)). split; [apply fresh_NoDup|]. split; [apply fresh_length|].
  intros Ne v. rewrite !fresh_In. intros H H'. apply Ne.
  set (n := Z.of_nat (variable_count t)) in *. 
  assert (y * w + x = y' * w + x') as K.
  { destruct (Z.lt_trichotomy (y * w + x) (y' * w + x')) as [L|[L|L]]; [exfalso|exact L|exfalso]; nia. }
  assert (y = y') by nia. subst y'. f_equal. lia.
Qed.

(** In a belt grid every member of a tile, found by its name, is made of the
    variables that the encoding uses for it; the extras follow. *)
Theorem C39_members g x y : wf_grid g -> wf_extras g -> inside (garea g) (x, y) ->
  let t := tile_at g (x, y) in
  exists fields, tile_instance (grid_tiles g) x y = Some (IRec fields) /\
    (forall name l, In (name, l) (lit_fields t) -> assoc name fields = Some (ILit l)) /\
    (forall name ls, In (name, ls) (list_fields t ++ colour_fields g t) -> assoc name fields = Some (IList (map ILit ls))) /\
    (forall name, In name (map fst (gextras g)) -> exists i, assoc name fields = Some i /\
       forall v, In v (flatten i) -> extras_base g (x, y) < v <= tile_base g (x, y) + tile_size g).
Proof.
  intros W X Hp t. destruct (Hp) as [Hx Hy]. cbn [garea area_of aw ah fst snd] in Hx, Hy.
  unfold grid_tiles. rewrite tile_instance_spec by assumption.
  change (gtop g + (y * width (geo g) + x) * Z.of_nat (variable_count (tile_template g))) with (tile_base g (x, y)).
  rewrite instantiate_tile. fold (tile_at g (x, y)). fold t. eexists. split; [reflexivity|].
  set (ex := fst (comp_go (gextras g) _)).
  assert (N : NoDup (map fst (member_fields g t ++ ex))).
  { rewrite map_app. unfold ex. rewrite comp_go_names. destruct X as [X _]. unfold own_names in X. unfold member_fields, lit_fields, list_fields, colour_fields.
    destruct (gcolours g); exact X. }
  split; [|split].
  - intros name l Hin. apply assoc_in; [exact N|]. apply in_or_app. left. unfold member_fields. apply in_or_app. left.
    apply in_map_iff. exists (name, l). auto.
  - intros name ls Hin. apply assoc_in; [exact N|]. apply in_or_app. left. unfold member_fields. apply in_or_app. right.
    apply in_map_iff. exists (name, ls). auto.
  - intros name Hin. unfold ex in *. rewrite <- (comp_go_names _ (tile_base g (x, y) + 20 + 3 * Z.of_nat (colour_bits g))) in Hin.
    apply in_map_iff in Hin. destruct Hin as ([n i] & <- & Hin). exists i. cbn [fst]. split.
    + apply assoc_in; [exact N|]. apply in_or_app. right. exact Hin.
    + intros v Hv. unfold extras_base.
      assert (B : forall fs top f w, In f (fst (comp_go fs top)) -> In w (flatten (snd f)) ->
        top < w <= top + Z.of_nat (variable_count (TComposite fs))).
      { intros fs top f w Hf Hw. pose proof (instantiate_fresh (TComposite fs) top) as [_ Fl]. rewrite instantiate_comp in Fl.
        destruct (comp_go fs top) as [l t2]. cbn [fst snd flatten] in *.
        assert (In w (fresh top (variable_count (TComposite fs)))); [|apply fresh_In; assumption].
        rewrite <- Fl. apply in_flat_map. exists f. auto. }
      specialize (B _ _ _ v Hin Hv). cbn [snd] in *.
      assert (S : tile_size g = 20 + 3 * Z.of_nat (colour_bits g) + Z.of_nat (variable_count (TComposite (gextras g)))).
      { unfold tile_size, tile_template. cbn [variable_count]. rewrite !fold_right_app. unfold colour_bits.
        destruct (gcolours g); cbn [fold_right snd variable_count shape_size]; lia. }
      lia.
Qed.

(** parse_solution of a list of literals that mentions every variable of the
    grid reads each tile from its own members. *)
Theorem C39_parse_solution g m rows : wf_grid g -> wf_extras g ->
  (forall v, gtop g < v <= gtop g + width (geo g) * height (geo g) * tile_size g -> mapping_of m v <> None) ->
  parse_solution g m = Some rows ->
  length rows = Z.to_nat (height (geo g)) /\
  forall x y, inside (garea g) (x, y) -> exists row t,
    nth_error rows (Z.to_nat y) = Some row /\ nth_error row (Z.to_nat x) = Some t /\
    read_tile (parse_tile (of_mapping (mapping_of m)) (tile_at g (x, y))) = Some t.
Proof.
  intros W X HM E. unfold parse_solution in E. pose proof W as ([Hw Hh] & _).
  destruct (instantiate_rows_spec (tile_template g) (Z.to_nat (height (geo g))) (Z.to_nat (width (geo g))) (gtop g)) as (_ & L & _ & _).
  fold (grid_tiles g) in L. destruct (omap_nth _ _ _ E) as [Lr N]. split; [congruence|].
  intros x y Hp. pose proof Hp as [Hx Hy]. cbn [garea area_of aw ah fst snd] in Hx, Hy.
  destruct (N (Z.to_nat y)) as (irow & row & Ei & Er & Eo); [rewrite L; lia|].
  pose proof (tile_instance_spec (tile_template g) (height (geo g)) (width (geo g)) (gtop g) x y Hx Hy) as TI.
  fold (grid_tiles g) in TI. unfold tile_instance in TI.
  replace ((0 <=? x) && (0 <=? y)) with true in TI by (symmetry; rewrite andb_true_iff, !Z.leb_le; lia).
  rewrite Ei in TI. cbn [obind] in TI.
  destruct (omap_nth _ _ _ Eo) as [Lc Nc].
  destruct (Nc (Z.to_nat x)) as (i & t & Exi & Ext & Ec); [apply nth_error_Some; congruence|].
  exists row, t. split; [exact Er|]. split; [exact Ext|]. rewrite Exi in TI. apply Some_inj in TI. rewrite TI in Ec.
  change (gtop g + (y * width (geo g) + x) * Z.of_nat (variable_count (tile_template g))) with (tile_base g (x, y)) in Ec.
  rewrite (parse_cell_spec g _ (x, y) W X Hp) in Ec; [exact Ec|].
  intros v Hv. apply HM. pose proof (tile_base_nonneg g (x, y) W Hp). unfold tile_base in *. cbn [fst snd] in *.
  pose proof (tile_size_pos g).
  assert (K : y * width (geo g) + x + 1 <= width (geo g) * height (geo g)) by nia.
  apply (Z.mul_le_mono_nonneg_r _ _ (tile_size g)) in K; lia.
Qed.

(** ** C40 *)
(** The position reached is the offset one, reduced modulo the size on wrapping
    axes; there is none exactly when a coordinate leaves a closed axis. *)
Definition on_axis (wrap : bool) (size c r : Z) : Prop :=
  0 <= r < size /\ if wrap then exists k, c = r + k * size else c = r.
Theorem C40_neighbour_lookup g x y dx dy : wf_geometry g ->
  (forall px py, get_tile_instance_offset g x y dx dy = Some (px, py) <->
     on_axis (wrap_x g) (width g) (x + dx) px /\ on_axis (wrap_y g) (height g) (y + dy) py) /\
  (get_tile_instance_offset g x y dx dy = None <->
     (wrap_x g = false /\ ~ 0 <= x + dx < width g) \/ (wrap_y g = false /\ ~ 0 <= y + dy < height g)).
Proof.
  intros Hg. rewrite (offset_place g x y dx dy Hg). destruct Hg as [Hw Hh].
  unfold place, insideb. cbn [area_of aw ah wrapx wrapy fst snd].
  set (cx := x + dx). set (cy := y + dy).
  assert (MX : 0 <= cx mod width g < width g) by (apply Z.mod_pos_bound; lia).
  assert (MY : 0 <= cy mod height g < height g) by (apply Z.mod_pos_bound; lia).
  assert (Ax : forall (wrap : bool) size c r, 0 < size -> on_axis wrap size c r <-> (r = if wrap then c mod size else c) /\ 0 <= r < size).
  { intros wrap size c r Hs. unfold on_axis. destruct wrap; [|intuition lia]. split.
    - intros [Hr (k & ->)]. split; [|exact Hr]. rewrite Z.mod_add by lia. symmetry. apply Z.mod_small. exact Hr.
    - intros [-> Hr]. split; [exact Hr|]. exists (c / size). pose proof (Z.div_mod c size ltac:(lia)). lia. }
  split.
  - intros px py. rewrite !Ax by lia. destruct (wrap_x g), (wrap_y g); cbn zeta;
      destruct (_ && _) eqn:E; rewrite ?andb_true_iff, ?andb_false_iff, ?Z.leb_le, ?Z.ltb_lt, ?Z.leb_gt, ?Z.ltb_ge in E;
      split; first [intros [= <- <-]; lia | intros [[-> ?] [-> ?]]; solve [reflexivity | exfalso; lia] | discriminate].
  - destruct (wrap_x g), (wrap_y g); cbn zeta;
      destruct (_ && _) eqn:E; rewrite ?andb_true_iff, ?andb_false_iff, ?Z.leb_le, ?Z.ltb_lt, ?Z.leb_gt, ?Z.ltb_ge in E;
      (split; [intros K; try discriminate|intros K; try reflexivity]); intuition (try discriminate; try lia).
Qed.

(** ** C41 *)
(** Bounds hold at the first and the last tile of the block. *)
Definition within (lo hi : option Z) (c : Z) : Prop :=
  match lo with Some m => m <= c | None => True end /\ match hi with Some m => c <= m | None => True end.
Definition block_at (g : geometry) (c r : Z * Z) (nc nr : Z) (p : Z * Z) : list (list (option (Z * Z))) :=
  map (fun row => map (fun col => get_tile_instance_offset g (fst p) (snd p)
    (fst r * row + fst c * col) (snd r * row + snd c * col)) (range nc)) (range nr).

(** Without y bounds (all calls in the program) the blocks are those, in order
    and each once, whose tiles lie within the x bounds. *)
Theorem C41_blocks_without_y_bounds g c r nc nr min_x max_x : wf_geometry g ->
  Z.abs (fst c) + Z.abs (snd c) = 1 -> Z.abs (fst r) + Z.abs (snd r) = 1 -> 0 < nc -> 0 < nr ->
  exists ps, iterate_tile_blocks g c nc r nr min_x None max_x None = Some (map (block_at g c r nc nr) ps) /\
    NoDup ps /\
    forall p, In p ps <-> inside (area_of g) p /\
      (forall i j, 0 <= i < nr -> 0 <= j < nc -> (i = 0 /\ j = 0) \/ (i = nr - 1 /\ j = nc - 1) ->
         within min_x max_x (fst p + fst r * i + fst c * j)).
Proof.
  intros Hg Hc Hr Nc Nr. destruct c as [cx cy], r as [rx ry]. cbn [fst snd] in *. unfold iterate_tile_blocks.
  replace (negb (Z.abs cx + Z.abs cy =? 1)) with false by (rewrite Hc; reflexivity).
  replace (negb (Z.abs rx + Z.abs ry =? 1)) with false by (rewrite Hr; reflexivity).
  replace (negb (0 <? nc)) with false by (destruct (Z.ltb_spec 0 nc); [reflexivity|lia]).
  replace (negb (0 <? nr)) with false by (destruct (Z.ltb_spec 0 nr); [reflexivity|lia]).
  eexists. split; [reflexivity|]. split; [apply NoDup_filter, iterate_tiles_NoDup|].
  intros p. rewrite filter_In, iterate_tiles_in. apply and_iff_compat_l. unfold block_skipped, within.
  assert (E : forall b : bool, negb (b || false) = negb b) by (intros []; reflexivity).
  rewrite negb_true_iff, !orb_false_iff.
  split.
  - intros [[[H1 _] H2] _] i j Hi Hj [[-> ->]|[-> ->]]; rewrite ?Z.mul_0_r, ?Z.add_0_r; split;
      destruct min_x, max_x; try exact Logic.I; apply orb_false_iff in H1 || idtac; apply orb_false_iff in H2 || idtac;
      rewrite ?Z.ltb_ge in *; lia.
  - intros H. pose proof (H 0 0 ltac:(lia) ltac:(lia) ltac:(lia)) as [A1 A2].
    pose proof (H (nr - 1) (nc - 1) ltac:(lia) ltac:(lia) ltac:(lia)) as [B1 B2].
    rewrite ?Z.mul_0_r, ?Z.add_0_r in A1, A2.
    repeat split; try reflexivity; destruct min_x, max_x; try reflexivity; apply orb_false_iff; rewrite !Z.ltb_ge; lia.
Qed.
(** In between, a straight or rectangular block stays within the bounds as well. *)
Theorem C41_block_inside_x_bounds rx cx nc nr min_x max_x x : 0 < nc -> 0 < nr -> 0 <= rx * cx ->
  within min_x max_x x -> within min_x max_x (x + rx * (nr - 1) + cx * (nc - 1)) ->
  forall i j, 0 <= i < nr -> 0 <= j < nc -> within min_x max_x (x + rx * i + cx * j).
Proof.
  unfold within. intros Nc Nr P [A1 A2] [B1 B2] i j Hi Hj.
  assert ((0 <= rx /\ 0 <= cx) \/ (rx <= 0 /\ cx <= 0)) by nia.
  split; [destruct min_x as [m|]|destruct max_x as [m|]]; try exact Logic.I; destruct H as [[]|[]]; nia.
Qed.

(** With y bounds the wrong coordinate is tested: in a 1 x 3 grid with
    [max_y = 1] a vertical block of two tiles reaches row 2, and in a 4 x 2 grid
    the block in column 3 is dropped although it lies within the bounds. *)
Theorem C41_y_bounds_refuted :
  (exists blocks, iterate_tile_blocks {| width := 1; height := 3; wrap_x := false; wrap_y := false |}
     (0, 1) 2 (1, 0) 1 None None None (Some 1) = Some blocks /\ In [[Some (0, 1); Some (0, 2)]] blocks) /\
  (exists blocks, iterate_tile_blocks {| width := 4; height := 2; wrap_x := false; wrap_y := false |}
     (0, 1) 2 (1, 0) 1 None None None (Some 1) = Some blocks /\ ~ In [[Some (3, 0); Some (3, 1)]] blocks).
Proof.
  split; eexists; (split; [vm_compute; reflexivity|]).
  - cbn. tauto.
  - cbn. intros H. repeat destruct H as [H|H]; try discriminate H. exact H.
Qed.

(** ** C42 *)
(** With a solver that answers truthfully with full models, in whatever order
    it likes, the enumeration ends; it lists only solutions, any two of which
    differ on an important variable, and every solution agrees with a listed
    one on the important variables. *)
Theorem C42_enumeration dom important solver cs : correct_solver dom solver -> in_dom dom cs ->
  let bound := S (2 ^ length (filter (fun v => existsb (Z.eqb v) important) dom))%nat in
  exists ms, (forall fuel, (bound <= fuel)%nat -> itersolve solver important fuel cs = Some ms) /\
    (forall m, In m ms -> full_model dom m /\ sat (model_assignment m) cs = true) /\
    (forall a, sat a cs = true -> exists m, In m ms /\ same_on important dom a (model_assignment m)) /\
    (forall i j m m', nth_error ms i = Some m -> nth_error ms j = Some m' -> i <> j ->
       ~ same_on important dom (model_assignment m) (model_assignment m')).
Proof.
  intros Hs D bound.
  assert (Mono : forall f cs ms, itersolve solver important f cs = Some ms -> forall f', (f <= f')%nat -> itersolve solver important f' cs = Some ms).
  { induction f as [|f IH]; intros cs0 ms E f' L; cbn [itersolve] in E; [discriminate|].
    destruct f' as [|f']; [lia|]. cbn [itersolve]. destruct (solver cs0) as [m|]; [|exact E].
    destruct (itersolve solver important f _) as [ms'|] eqn:Em; [|discriminate]. rewrite (IH _ _ Em f') by lia. exact E. }
  destruct (itersolve_ends dom important solver Hs bound cs []) as [ms E]; [exact D|constructor|intros v []|intros a _ []|cbn; lia|].
  exists ms. split; [intros fuel L; exact (Mono _ _ _ E _ L)|].
  exact (itersolve_correct dom important solver Hs bound cs ms D E).
Qed.
(** With an external command at most one solution is given. *)
Theorem C42_command dom run cs : correct_solver dom run -> in_dom dom cs ->
  match itersolve_command run cs with
  | [] => forall a, sat a cs = false
  | [m] => full_model dom m /\ sat (model_assignment m) cs = true
  | _ => False
  end.
Proof. intros H D. specialize (H cs D). unfold itersolve_command. destruct (run cs); exact H. Qed.

(** ** C43 *)
(** [lines] is the output of a solver whose model is [m]: lines not starting
    with "s", the status, then comments and value lines. *)
Theorem C43_satisfiable m pre status lines : Forall (fun l => l <> 0) m ->
  Forall (fun l => starts_with "s" l = false) pre -> starts_with "s SATISFIABLE" status = true ->
  values_lines false (m ++ [0]) lines ->
  read_answer (pre ++ status :: lines) = Model m.
Proof.
  intros N P S V. rewrite read_answer_skip by exact P. cbn [read_answer].
  assert (starts_with "s" status = true /\ starts_with "s UNSATISFIABLE" status = false) as [-> ->].
  { destruct status as [|c0 [|c1 [|c2 status]]]; cbn [starts_with] in S; rewrite ?andb_false_r in S; try discriminate.
    rewrite !andb_true_iff in S. destruct S as (E0 & E1 & E2 & _). apply Ascii.eqb_eq in E0, E1, E2. subst. split; reflexivity. }
  rewrite S. cbn [negb]. apply (read_values_lines false (m ++ [0])%list lines V [] m eq_refl N). discriminate.
Qed.
Theorem C43_unsatisfiable pre status lines :
  Forall (fun l => starts_with "s" l = false) pre -> starts_with "s UNSATISFIABLE" status = true ->
  read_answer (pre ++ status :: lines) = Unsat.
Proof.
  intros P S. rewrite read_answer_skip by exact P. cbn [read_answer]. rewrite S.
  destruct status as [|c0 status]; [discriminate|]. cbn [starts_with] in S. apply andb_true_iff in S. destruct S as [E0 _].
  cbn [starts_with]. rewrite E0. reflexivity.
Qed.
(** Any other output is an error, not an answer: no status line, or an unknown
    status. *)
Theorem C43_no_answer lines : Forall (fun l => starts_with "s" l = false) lines -> read_answer lines = Failed.
Proof. intros H. rewrite <- (app_nil_r lines), read_answer_skip by exact H. reflexivity. Qed.
Theorem C43_unknown_status pre status lines :
  Forall (fun l => starts_with "s" l = false) pre -> starts_with "s" status = true ->
  starts_with "s UNSATISFIABLE" status = false -> starts_with "s SATISFIABLE" status = false ->
  read_answer (pre ++ status :: lines) = Failed.
Proof. intros P S U Y. rewrite read_answer_skip by exact P. cbn [read_answer]. rewrite S, U, Y. reflexivity. Qed.
(** A first value line without values is rejected. *)
Theorem C43_empty_value_line_refuted :
  read_answer ["s SATISFIABLE"; "v"; "v 1 -2 0"] = Failed /\ read_answer ["s SATISFIABLE"; "v 1"; "v"; "v -2 0"] = Model [1; -2].
Proof. split; vm_compute; reflexivity. Qed.

(** ** C59 *)
Section Wrapper.
  Variable reply : list libcall -> libcall -> Z.
  Variable P : Z. (* the pointer returned by ipasir_init *)

  (** For every history of method calls: each clause given before closing
      reaches the library as its literals and a 0, in order; the variables
      remembered are those of these clauses, once each; the solver is released
      once if it is closed and never otherwise; calls before that are on the
      solver, and no later call is. *)
  Theorem C59_history ms :
    let '(os, s, log) := run reply (created P) [] ms in
    let clauses := flat_map clauses_of (opened ms) in
    added log = flat_map (fun c => c ++ [0])%list clauses /\
    NoDup (vars s) /\
    (forall v, In v (vars s) <-> exists c l, In c clauses /\ In l c /\ v = Z.abs l) /\
    filter is_release log = (if existsb closes ms then [LRelease (Some P)] else []) /\
    exists before after, log = (before ++ (if existsb closes ms then LRelease (Some P) :: after else []))%list /\
      Forall (fun c => pointer_of c = Some (Some P)) before /\ Forall (fun c => pointer_of c = Some None) after.
  Proof.
    pose proof (run_open reply P ms (created P) [] eq_refl) as R. destruct (run reply (created P) [] ms) as [[os s] log].
    destruct R as (_ & N & V & before & after & E & Ab & Aa & Fb & Fa). cbn zeta. cbn [app] in E.
    assert (NR : forall l Q, Forall (fun c => is_release c = false /\ Q c) l -> filter is_release l = []).
    { intros l Q H. induction H as [|c l [Hc _] _ IH]; cbn; [reflexivity|]. rewrite Hc. exact IH. }
    split; [|split; [|split; [|split]]].
    - rewrite E, added_app, Ab. destruct (existsb closes ms); cbn; [fold (added after); rewrite Aa|]; apply app_nil_r.
    - apply N. constructor.
    - intros v. rewrite V. cbn. tauto.
    - rewrite E, filter_app, (NR before _ Fb). destruct (existsb closes ms); cbn; [rewrite (NR after _ Fa)|]; reflexivity.
    - exists before, after. split; [exact E|]. split; eapply Forall_impl; eauto; cbn; tauto.
  Qed.

  (** get_model on an open solver lists each variable once, with the value the
      library reports, positive if it reports none. *)
  Theorem C59_model ms : existsb closes ms = false ->
    let '(os, s, log) := run reply (created P) [] ms in
    (forall v log, In v (vars s) -> let x := reply log (LVal (Some P) v) in x = v \/ x = - v \/ x = 0) ->
    exists m log', step reply s log MGetModel = (Lits m, s, log') /\
      NoDup (map Z.abs m) /\ (forall v, In v (map Z.abs m) <-> In v (vars s)) /\
      (forall l, In l m -> exists log'', let v := Z.abs l in let x := reply log'' (LVal (Some P) v) in
         l = if x =? 0 then v else x).
  Proof.
    intros C. pose proof (run_open reply P ms (created P) [] eq_refl) as R. destruct (run reply (created P) [] ms) as [[os s] log].
    rewrite C in R. destruct R as (Hp & N & V & _). intros H. specialize (N (NoDup_nil _)).
    destruct (get_values_model reply (Some P) (vars s) H log) as [G1 G2]. cbn zeta in G1, G2.
    unfold step. rewrite Hp. destruct (get_values reply (Some P) log (vars s)) as [m log'] eqn:Eg. cbn [fst] in *.
    exists m, log'. split; [reflexivity|].
    assert (A : map Z.abs (vars s) = vars s).
    { rewrite <- (map_id (vars s)) at 2. apply map_ext_in. intros v Hv. apply V in Hv. destruct Hv as [[]|(c & l & _ & _ & ->)]. lia. }
    rewrite G1, A. split; [exact N|]. split; [tauto|].
    intros l Hl. apply In_nth_error in Hl. destruct Hl as [i Hi].
    assert (Ev : nth_error (map Z.abs m) i = Some (Z.abs l)) by (rewrite nth_error_map, Hi; reflexivity).
    rewrite G1, A in Ev. eexists. exact (G2 i _ l Ev Hi).
  Qed.

  (** After closing, every method that works on the solver raises and reaches
      the library not at all. *)
  Theorem C59_closed ms m : existsb closes ms = true ->
    match m with MDel | MSetLearn _ | MSetTerminate => False | _ => True end ->
    let '(os, s, log) := run reply (created P) [] ms in step reply s log m = (Raised, s, log).
  Proof.
    intros C Hm. pose proof (run_open reply P ms (created P) [] eq_refl) as R. destruct (run reply (created P) [] ms) as [[os s] log].
    rewrite C in R. destruct R as (Hp & _). pose proof (step_closed reply s log m Hp) as S.
    destruct (step reply s log m) as [[o s'] log']. destruct S as [-> S].
    destruct m; try contradiction; destruct S as [-> ->]; reflexivity.
  Qed.
  (** The two callback setters do not check: they pass a null pointer on. *)
  Theorem C59_closed_callbacks_refuted ms k : existsb closes ms = true ->
    let '(os, s, log) := run reply (created P) [] ms in
    step reply s log (MSetLearn k) = (Done, s, log ++ [LSetLearn None k])%list /\
    step reply s log MSetTerminate = (Done, s, log ++ [LSetTerminate None])%list.
  Proof.
    intros C. pose proof (run_open reply P ms (created P) [] eq_refl) as R. destruct (run reply (created P) [] ms) as [[os s] log].
    rewrite C in R. destruct R as (Hp & _). unfold step. rewrite Hp. auto.
  Qed.
End Wrapper.

(** * Concrete cases *)
Definition two_tiles : geometry := {| width := 2; height := 1; wrap_x := true; wrap_y := false |}.
Example C39_example :
  fst (instantiate_rows (TComposite [("b", TBool); ("n", TSized (Number true) 2); ("m", TArray TBool [2; 2]%nat)]) 1 2 10)
  = [[IRec [("b", ILit 11); ("n", IList [ILit 12; ILit 13]); ("m", IList [IList [ILit 14; ILit 15]; IList [ILit 16; ILit 17]])];
      IRec [("b", ILit 18); ("n", IList [ILit 19; ILit 20]); ("m", IList [IList [ILit 21; ILit 22]; IList [ILit 23; ILit 24]])]]].
Proof. reflexivity. Qed.
Definition small_grid : grid :=
  {| geo := two_tiles; gcolours := Some 3; glen := Some 4; gextras := [("level", TSized (Number true) 2)]; gtop := 0 |}.
Example C39_extras : wf_grid small_grid /\ wf_extras small_grid.
Proof.
  repeat split; cbn; try lia.
  - repeat (constructor; [cbn; intuition discriminate|]). constructor.
  - repeat constructor.
Qed.
(** All variables false but the two is_empty: both tiles are read as empty. *)
Definition small_model : list lit := map (fun v => if (v =? 2) || (v =? 30) then v else - v) (fresh 0 56).
Example C39_parse_example : parse_solution small_grid small_model = Some [[Empty; Empty]] /\
  (forall v, 0 < v <= 0 + 2 * 1 * tile_size small_grid -> mapping_of small_model v <> None) /\
  parse_solution small_grid (firstn 55 small_model) = None.
Proof.
  split; [vm_compute; reflexivity|]. split; [|vm_compute; reflexivity].
  change (tile_size small_grid) with 28. intros v Hv.
  assert (H : In v (fresh 0 56)) by (apply fresh_In; lia).
  assert (F : forallb (fun v => match mapping_of small_model v with Some _ => true | None => false end) (fresh 0 56) = true) by (vm_compute; reflexivity).
  rewrite forallb_forall in F. specialize (F v H). destruct (mapping_of small_model v); [discriminate|discriminate F].
Qed.
Example C40_example : get_tile_instance_offset two_tiles 1 0 2 0 = Some (1, 0) /\
  get_tile_instance_offset two_tiles 0 0 (-1) 0 = Some (1, 0) /\ get_tile_instance_offset two_tiles 0 0 0 1 = None.
Proof. repeat split. Qed.
Example C41_example : exists blocks,
  iterate_tile_blocks {| width := 4; height := 3; wrap_x := false; wrap_y := false |} (1, 0) 2 (0, -1) 2 (Some 1) None (Some 2) None = Some blocks /\
  nth_error blocks 1 = Some [[Some (1, 1); Some (2, 1)]; [Some (1, 0); Some (2, 0)]] /\ length blocks = 3%nat.
Proof. eexists. split; [reflexivity|]. split; reflexivity. Qed.

(** A solver that tries every assignment meets the contract. *)
Fixpoint models (dom : list Z) : list (list lit) :=
  match dom with
  | [] => [[]]
  | v :: r => (map (cons v) (models r) ++ map (cons (- v)) (models r))%list
  end.
Definition naive (dom : list Z) (cs : cnf) : option (list lit) := find (fun m => sat (model_assignment m) cs) (models dom).
Lemma models_full dom m : Forall (fun v => 0 < v) dom -> NoDup dom -> In m (models dom) -> map Z.abs m = dom /\ Forall (fun l => l <> 0) m.
Proof.
  revert m. induction dom as [|v r IH]; cbn [models]; intros m Hp Hn Hm; [destruct Hm as [<-|[]]; auto|].
  inversion Hp; inversion Hn; subst. apply in_app_iff in Hm. rewrite !in_map_iff in Hm.
  destruct Hm as [(m' & <- & Hm')|(m' & <- & Hm')]; destruct (IH m') as [E N]; auto; cbn [map]; rewrite E; split; try (constructor; [lia|exact N]); f_equal; lia.
Qed.
Lemma models_complete dom (a : assignment) : In (map (fun v => if a v then v else - v) dom) (models dom).
Proof.
  induction dom as [|v r IH]; cbn [models map]; [left; reflexivity|]. apply in_app_iff. destruct (a v); [left|right]; apply in_map; exact IH.
Qed.
Lemma sat_same_dom dom a b cs : in_dom dom cs -> Forall (Forall (fun l => l <> 0)) cs -> (forall v, In v dom -> a v = b v) -> sat a cs = sat b cs.
Proof.
  intros D N H. unfold sat. induction cs as [|c cs IH]; [reflexivity|]. inversion D; inversion N; subst. cbn [forallb]. f_equal; [|apply IH; assumption].
  unfold satc. clear -H H2 H6. induction c as [|l c IH]; [reflexivity|]. inversion H2; inversion H6; subst. cbn [existsb]. f_equal; [|apply IH; assumption].
  rewrite !P_Solve.evl_cases by assumption. rewrite (H (Z.abs l)) by assumption. reflexivity.
Qed.
Lemma naive_correct dom : Forall (fun v => 0 < v) dom -> NoDup dom -> correct_solver dom (naive dom).
Proof.
  intros Hp Hn cs D. unfold naive. destruct (find _ _) as [m|] eqn:E.
  - apply find_some in E. destruct E as [Hm S]. destruct (models_full dom m Hp Hn Hm) as [Ea N0]. split; [|exact S].
    split; [exact N0|]. rewrite Ea. split; [exact Hn|tauto].
  - intros a. apply not_true_is_false. intros S.
    pose proof (find_none _ _ E _ (models_complete dom a)) as F. cbn beta in F.
    assert (G : sat a cs = sat (model_assignment (map (fun v => if a v then v else - v) dom)) cs); [|congruence].
    apply (sat_same_dom dom); [exact D| |].
    + apply Forall_forall. intros c Hc. apply Forall_forall. intros l Hl.
      unfold in_dom in D. rewrite Forall_forall in D. specialize (D c Hc). rewrite Forall_forall in D. specialize (D l Hl).
      rewrite Forall_forall in Hp. specialize (Hp _ D). lia.
    + intros v Hv. destruct (models_full dom _ Hp Hn (models_complete dom a)) as [Ea N0].
      assert (F0 : full_model dom (map (fun v => if a v then v else - v) dom)) by (split; [exact N0|]; rewrite Ea; split; [exact Hn|tauto]).
      pose proof (agrees_self dom _ F0) as A.
      unfold agrees in A. rewrite Forall_forall in A. specialize (A (if a v then v else - v) (in_map (fun v => if a v then v else - v) _ _ Hv)).
      rewrite Forall_forall in Hp. specialize (Hp v Hv).
      rewrite P_Solve.evl_cases in A by (destruct (a v); lia).
      destruct (a v); [rewrite Z.abs_eq, (proj2 (Z.ltb_lt 0 v)) in A by lia|rewrite Z.abs_opp, Z.abs_eq, (proj2 (Z.ltb_ge 0 (- v))) in A by lia].
      * symmetry. exact A.
      * apply negb_true_iff in A. symmetry. exact A.
Qed.
Example C42_example : correct_solver [1; 2; 3] (naive [1; 2; 3]) /\
  itersolve (naive [1; 2; 3]) [1; 2] 5 [[1; 2]; [- (3)]] = Some [[1; 2; -3]; [1; -2; -3]; [-1; 2; -3]].
Proof. split; [apply naive_correct; [repeat constructor|repeat (constructor; [cbn; intuition lia|]); constructor]|vm_compute; reflexivity]. Qed.

Example C43_example :
  values_lines false ([1; -20; 3] ++ [0]) ["c time 1"; "v 1 -20"; "v"; "v 3 0 "; "c done"] /\
  read_answer ["c hello"; "s SATISFIABLE"; "c time 1"; "v 1 -20"; "v"; "v 3 0 "; "c done"] = Model [1; -20; 3].
Proof.
  split; [|vm_compute; reflexivity].
  change ("c time 1") with (String "c" " time 1"). apply lines_comment.
  change ([1; -20; 3] ++ [0])%list with ([1; -20] ++ ([] ++ ([3; 0] ++ [])))%list.
  apply (lines_values false [1; -20] _ " 1 -20"); [|left; discriminate|].
  { apply (values_next " " 1 [-20] " -20"); [reflexivity|discriminate|]. apply (values_next " " (-20) [] ""); [reflexivity|discriminate|]. constructor. reflexivity. }
  apply (lines_values true [] _ ""); [constructor; reflexivity|right; reflexivity|].
  apply (lines_values true [3; 0] _ " 3 0 "); [|left; discriminate|constructor].
  apply (values_next " " 3 [0] " 0 "); [reflexivity|discriminate|]. apply (values_next " " 0 [] " "); [reflexivity|discriminate|]. constructor. reflexivity.
Qed.

(** The answers of an open solver: solve says True, False or nothing for 10, 20
    and 0 and raises otherwise; whether an assumption was used is what the library
    says; an assumption is passed on. *)
Theorem C59_answers reply s log p l : solver_p s = Some p ->
  (exists o, step reply s log MSolve = (o, s, (log ++ [LSolve (Some p)])%list) /\
     (o = Status (Some true) <-> reply log (LSolve (Some p)) = 10) /\ (o = Status (Some false) <-> reply log (LSolve (Some p)) = 20) /\
     (o = Status None <-> reply log (LSolve (Some p)) = 0) /\
     (o = Raised <-> ~ In (reply log (LSolve (Some p))) [0; 10; 20])) /\
  (exists b, step reply s log (MFailed l) = (Status (Some b), s, (log ++ [LFailed (Some p) l])%list) /\ (b = true <-> reply log (LFailed (Some p) l) <> 0)) /\
  step reply s log (MAssume l) = (Done, s, (log ++ [LAssume (Some p) l])%list).
Proof.
  intros E. unfold step. rewrite E. split; [|split; [|reflexivity]].
  - eexists. split; [reflexivity|]. set (r := reply log (LSolve (Some p))). destruct (Z.eqb_spec r 0); [|destruct (Z.eqb_spec r 10); [|destruct (Z.eqb_spec r 20)]];
      cbn [In]; (repeat split; intros H; try congruence; try lia; try discriminate); exfalso; apply H; auto.
  - eexists. split; [reflexivity|]. set (r := reply log (LFailed (Some p) l)). destruct (Z.eqb_spec r 0); cbn; split; congruence.
Qed.
Example C59_example :
  let reply := fun (log : list libcall) (c : libcall) => match c with LSolve _ => 10 | LVal _ v => if v =? 2 then - (2) else if v =? 7 then 0 else v | _ => 0 end in
  run reply (created 99) [] [MAddClause [1; - (2)]; MSolve; MGetModel; MAddClauses [[7]]; MGetModel; MExit; MSolve; MExit] =
  ([Done; Status (Some true); Lits [1; -2]; Done; Lits [1; -2; 7]; Done; Raised; Raised], {| solver_p := None; vars := [1; 2; 7] |},
   [LAdd (Some 99) 1; LAdd (Some 99) (-2); LAdd (Some 99) 0; LSolve (Some 99); LVal (Some 99) 1; LVal (Some 99) 2;
    LAdd (Some 99) 7; LAdd (Some 99) 0; LVal (Some 99) 1; LVal (Some 99) 2; LVal (Some 99) 7; LRelease (Some 99)]).
Proof. reflexivity. Qed.

Print Assumptions C39_variables_contiguous.
Print Assumptions C39_tiles_disjoint.
Print Assumptions C39_members.
Print Assumptions C39_parse_solution.
Print Assumptions C40_neighbour_lookup.
Print Assumptions C41_blocks_without_y_bounds.
Print Assumptions C41_block_inside_x_bounds.
Print Assumptions C41_y_bounds_refuted.
Print Assumptions C42_enumeration.
Print Assumptions C42_command.
Print Assumptions C43_satisfiable.
Print Assumptions C43_unsatisfiable.
Print Assumptions C43_no_answer.
Print Assumptions C43_unknown_status.
Print Assumptions C43_empty_value_line_refuted.
Print Assumptions C59_history.
Print Assumptions C59_model.
Print Assumptions C59_closed.
Print Assumptions C59_closed_callbacks_refuted.
Print Assumptions C59_answers.
