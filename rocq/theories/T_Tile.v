(** Property theorems C15-C20: directions, tiles, grid transforms, pictures. *)
From Coq Require Import ZArith List Bool String Lia.
From Verif Require Import Spec_Tile Spec_Layout Spec_Transform M_Json M_Tile M_Rotate M_String
  P_Tile P_Rotate P_Layout P_String.
Import ListNotations.
Local Open Scope string_scope.
Open Scope Z_scope.

(** * C15 *)
(** The vector of a direction; [next] turns it a quarter anticlockwise on the
    screen, [prev] back, [reverse] negates it. *)
Theorem C15_vectors d :
  dir_vec d = (step_x d, step_y d) /\
  dir_vec (next d) = (step_y d, - step_x d) /\
  dir_vec (prev d) = (- step_y d, step_x d) /\
  dir_vec (reverse d) = (- step_x d, - step_y d).
Proof. destruct d; repeat split. Qed.

Theorem C15_group d r s :
  dir_add d r = Some (dir_add' d r) /\
  dir_add' (dir_add' d r) s = dir_add' d (r + s) /\
  dir_add' d 4 = d /\ next (prev d) = d /\ prev (next d) = d /\ reverse (reverse d) = d /\
  (dir_add' d r = d <-> r mod 4 = 0).
Proof.
  split; [apply dir_add_some|]. split.
  - apply dir_value_inj. rewrite !dir_add'_value.
    rewrite Zplus_mod_idemp_l. f_equal. lia.
  - split; [destruct d; reflexivity|]. split; [destruct d; reflexivity|]. split; [destruct d; reflexivity|].
    split; [destruct d; reflexivity|]. split.
    + intros H. pose proof (f_equal dir_value H) as V. rewrite dir_add'_value in V.
      pose proof (dir_value_bound d). Z.div_mod_to_equations. lia.
    + intros H. apply dir_value_inj. rewrite dir_add'_value.
      pose proof (dir_value_bound d). Z.div_mod_to_equations. lia.
Qed.

(** Factorio numbers north 0, east 2, south 4, west 6. *)
Theorem C15_factorio :
  factorio_direction UP = 0 /\ factorio_direction RIGHT = 2 /\
  factorio_direction DOWN = 4 /\ factorio_direction LEFT = 6 /\
  (forall d, from_factorio (factorio_direction d) = Some d) /\
  (forall f, exists d, from_factorio f = Some d /\
     factorio_direction d = 2 * ((f / 2) mod 4)) /\
  (forall f, In f [0; 2; 4; 6] -> exists d, from_factorio f = Some d /\ factorio_direction d = f).
Proof.
  repeat split.
  - intros d; destruct d; reflexivity.
  - intros f. unfold from_factorio.
    assert (H : 0 <= (1 - f / 2) mod 4 < 4) by (apply Z.mod_pos_bound; lia).
    apply dir_of_value_some in H. destruct H as (d & -> & V). exists d. split; [reflexivity|].
    unfold factorio_direction. rewrite V. Z.div_mod_to_equations. lia.
  - intros f Hf. cbn in Hf. intuition; subst; eexists; split; reflexivity.
Qed.

(** * C16 *)
Theorem C16_read_write t : valid_tile t -> tile_read (tile_write t) = Some t.
Proof. apply tile_read_write. Qed.
Theorem C16_write_injective t u : valid_tile t -> valid_tile u -> tile_write t = tile_write u -> t = u.
Proof.
  intros Ht Hu E. apply tile_read_write in Ht. apply tile_read_write in Hu. congruence.
Qed.
(** Whatever JSON is read, the tile is one the classes admit. *)
Theorem C16_read_valid j t : tile_read j = Some t -> valid_tile t.
Proof. apply tile_read_valid. Qed.

Example C16_example : valid_tile (Belt RIGHT DOWN) /\
  tile_write (Belt RIGHT DOWN) =
    JObj [("type", JStr "belt"); ("input_direction", JNum 0); ("output_direction", JNum 3)] /\
  tile_read (JObj [("type", JStr "belt"); ("input_direction", JNum 0); ("output_direction", JNum 2)]) = None.
Proof. split; [discriminate|split; reflexivity]. Qed.

(** * C17 *)
(** [good_grid h w g]: a rectangular, non-empty JSON grid each of whose cells
    is an object with a "tile" entry written by some admissible tile. *)
Theorem C17_turns h w g : good_grid h w g ->
  rotate_line NO_OP g = Some g /\
  (let* a := rotate_line ROT_90 g in rotate_line ROT_90 a) = rotate_line ROT_180 g /\
  (let* a := rotate_line ROT_180 g in rotate_line ROT_90 a) = rotate_line ROT_270 g /\
  (let* a := rotate_line ROT_270 g in rotate_line ROT_90 a) = Some g /\
  (let* a := rotate_line ROT_180 g in rotate_line ROT_180 a) = Some g.
Proof.
  intros G. repeat split.
  - eapply rotate_no_op; eassumption.
  - eapply comp_90_90; eassumption.
  - eapply comp_180_90; eassumption.
  - eapply comp_270_90; eassumption.
  - eapply comp_180_180; eassumption.
Qed.

Theorem C17_flips h w g : good_grid h w g ->
  (let* a := rotate_line FLIP_X g in rotate_line FLIP_X a) = Some g /\
  (let* a := rotate_line FLIP_Y g in rotate_line FLIP_Y a) = Some g /\
  (let* a := rotate_line FLIP_X g in rotate_line FLIP_Y a) = rotate_line ROT_180 g /\
  (let* a := rotate_line FLIP_Y g in rotate_line FLIP_X a) = rotate_line ROT_180 g.
Proof.
  intros G. repeat split.
  - eapply comp_x_x; eassumption.
  - eapply comp_y_y; eassumption.
  - eapply comp_x_y; eassumption.
  - eapply comp_y_x; eassumption.
Qed.

(** None of the operations raises, and each gives a grid of the same kind. *)
Theorem C17_total o h w g : good_grid h w g -> exists g', rotate_line o g = Some g' /\
  good_grid (if swaps o then w else h) (if swaps o then h else w) g'.
Proof.
  intros G. eexists. split; [eapply rotate_line_some; eassumption|].
  apply good_grid_map. apply good_grid_op. assumption.
Qed.

Definition sample_grid : list (list json) :=
  map (map (fun t => JObj [("colour", JNum 1); ("tile", tile_write t)]))
    [[Belt RIGHT RIGHT; Splitter RIGHT false; Underground RIGHT true];
     [Empty; Splitter RIGHT true; Belt RIGHT UP]].

Example C17_example : good_grid 2 3 sample_grid.
Proof.
  repeat split; try (cbn; lia).
  - repeat constructor.
  - intros r c Hr Hc. apply in_map_iff in Hr. destruct Hr as (r0 & <- & Hr).
    apply in_map_iff in Hc. destruct Hc as (t & <- & Ht). exists t. eexists.
    split; [reflexivity|]. split; [reflexivity|].
    cbn in Hr. destruct Hr as [<-|[<-|[]]]; cbn in Ht;
      destruct Ht as [<-|[<-|[<-|[]]]]; cbn; try exact I; discriminate.
Qed.

(** * C18 *)
Theorem C18_valid_layout o h w g G wx wy : rect h w g -> (0 < h)%nat -> (0 < w)%nat ->
  read_grid g = Some G ->
  let A := {| aw := Z.of_nat w; ah := Z.of_nat h; wrapx := wx; wrapy := wy |} in
  exists g' G', rotate_line o g = Some g' /\ read_grid g' = Some G' /\
    (forall p, inside A p ->
       layout_of G' (image_pos (sym_of o) A p) = image_tile (sym_of o) (layout_of G p)) /\
    (forall L, valid_layout A (layout_of G) L <->
               valid_layout (image_area (sym_of o) A) (layout_of G') L).
Proof. intros. apply rotate_line_valid; assumption. Qed.

(** Image positions carry neighbours to neighbours, and feeding to feeding. *)
Theorem C18_feeds s A T T' p d : 0 < aw A -> 0 < ah A ->
  (forall p, inside A p -> T' (image_pos s A p) = image_tile s (T p)) -> inside A p ->
  inside (image_area s A) (image_pos s A p) /\
  (forall k, ahead (image_area s A) (image_pos s A p) (image_dir s d) k
             = option_map (image_pos s A) (ahead A p d k)) /\
  (pushes (T' (image_pos s A p)) (image_dir s d) <-> pushes (T p) d) /\
  (takes (T' (image_pos s A p)) (image_dir s d) <-> takes (T p) d).
Proof.
  intros Hw Hh HT Hp. assert (E := equivariant_of_sym s A T T' Hw Hh HT).
  split; [apply image_inside; assumption|]. split; [intros k; apply image_ahead; assumption|].
  split; [apply (e_pushes E); assumption|apply (e_takes E); assumption].
Qed.

(** A small working layout (a splitter fed by a belt on one side, feeding two
    belts), read from JSON: the hypotheses of C18 hold with a valid layout. *)
Definition sample_layout : list (list tile) :=
  [[Belt RIGHT RIGHT; Splitter RIGHT false; Belt RIGHT RIGHT];
   [Empty; Splitter RIGHT true; Belt RIGHT RIGHT]].
Definition sample_json := map (map (fun t => JObj [("tile", tile_write t)])) sample_layout.
Example C18_example_reads : rect 2 3 sample_json /\ read_grid sample_json = Some sample_layout.
Proof. split; [split; [reflexivity|repeat constructor]|reflexivity]. Qed.
Example C18_example_valid : valid_layout {| aw := 3; ah := 2; wrapx := false; wrapy := false |}
  (layout_of sample_layout) 4.
Proof.
  set (A := {| aw := 3; ah := 2; wrapx := false; wrapy := false |}).
  assert (IN : forall p, inside A p -> In p [(0, 0); (1, 0); (2, 0); (0, 1); (1, 1); (2, 1)]).
  { intros [x y]. unfold inside. cbn. intros H.
    assert (C : (x = 0 \/ x = 1 \/ x = 2) /\ (y = 0 \/ y = 1)) by lia.
    destruct C as [[->|[->| ->]] [->| ->]]; auto 10. }
  repeat split.
  - intros p Hp. apply IN in Hp. cbn in Hp. intuition; subst; cbn; try exact I; discriminate.
  - intros p d hd Hp HT. apply IN in Hp. cbn in Hp. intuition; subst; try discriminate HT;
      injection HT as <- <-; eexists; split; reflexivity.
  - intros p d q Hp HP HS HN. apply IN in Hp. cbn in Hp. destruct Hp as [<-|[<-|[<-|[<-|[<-|[<-|[]]]]]]];
      (destruct d; vm_compute in HP, HS, HN;
        first [contradiction|discriminate HP|discriminate HN|exfalso; apply HS; exact I|injection HN as <-; reflexivity]).
  - intros p d q Hp HP HS HN. apply IN in Hp. cbn in Hp. destruct Hp as [<-|[<-|[<-|[<-|[<-|[<-|[]]]]]]];
      (destruct d; vm_compute in HP, HS, HN;
        first [contradiction|discriminate HP|discriminate HN|exfalso; apply HS; exact I|injection HN as <-; reflexivity]).
  - intros p d hd q i o Hp HT HN HB. apply IN in Hp. cbn in Hp. intuition; subst; try discriminate HT;
      injection HT as <- <-; cbn in HN; injection HN as <-; injection HB as <- <-; reflexivity.
  - intros p d hd Hp HT. apply IN in Hp. cbn in Hp. intuition; subst; try discriminate HT;
      injection HT as <- <-; right; intros q HN; cbn in HN; injection HN as <-; reflexivity.
  - intros p d Hp HT. apply IN in Hp. cbn in Hp. intuition; subst; discriminate HT.
  - intros p d Hp HT. apply IN in Hp. cbn in Hp. intuition; subst; discriminate HT.
Qed.

(** * C19 *)
(** A complete 3x3 machine with its top left corner at [p]. *)
Definition machine_at (T : layout) (p : pos) : Prop :=
  forall i j, 0 <= i < 3 -> 0 <= j < 3 -> T (fst p + i, snd p + j) = Assembler i j.

(** Whatever the grid and the operation (other than the identity), the nine
    cells of a machine are never a machine after the operation. *)
Theorem C19_machine_refuted o h w g G p :
  rect h w g -> (0 < h)%nat -> (0 < w)%nat -> read_grid g = Some G ->
  let A := {| aw := Z.of_nat w; ah := Z.of_nat h; wrapx := false; wrapy := false |} in
  inside A p -> inside A (fst p + 2, snd p + 2) -> machine_at (layout_of G) p -> o <> NO_OP ->
  exists g' G', rotate_line o g = Some g' /\ read_grid g' = Some G' /\
    forall q, (forall i j, 0 <= i < 3 -> 0 <= j < 3 ->
       let r := image_pos (sym_of o) A (fst p + i, snd p + j) in
       fst q <= fst r <= fst q + 2 /\ snd q <= snd r <= snd q + 2) ->
     ~ machine_at (layout_of G') q.
Proof.
  intros R Hh Hw HG A Hp Hp2 HM Ho.
  destruct (rotate_line_valid o h w g G false false R Hh Hw HG) as (g' & G' & E1 & E2 & E3 & _).
  exists g', G'. split; [exact E1|]. split; [exact E2|].
  intros [qx qy] HB HM'. destruct p as [x y]. cbn [fst snd] in *.
  assert (C : exists i j, 0 <= i < 3 /\ 0 <= j < 3 /\ (i, j) <> (0, 0) /\
    image_pos (sym_of o) A (x + i, y + j) = (qx, qy)).
  { pose proof (HB 0 0 ltac:(lia) ltac:(lia)) as B0. pose proof (HB 2 2 ltac:(lia) ltac:(lia)) as B2.
    destruct o; cbn in B0, B2; [congruence| | | | |].
    - exists 2, 0. cbn. repeat split; try lia; [discriminate|f_equal; lia].
    - exists 2, 2. cbn. repeat split; try lia; [discriminate|f_equal; lia].
    - exists 0, 2. cbn. repeat split; try lia; [discriminate|f_equal; lia].
    - exists 2, 0. cbn. repeat split; try lia; [discriminate|f_equal; lia].
    - exists 0, 2. cbn. repeat split; try lia; [discriminate|f_equal; lia]. }
  destruct C as (i & j & Hi & Hj & N & EI).
  assert (Hin : inside A (x + i, y + j)).
  { unfold inside in *. cbn in *. lia. }
  assert (E4 : layout_of G' (image_pos (sym_of o) A (x + i, y + j))
    = image_tile (sym_of o) (layout_of G (x + i, y + j))) by exact (E3 _ Hin).
  clear E3. rename E4 into E3. rewrite EI in E3.
  specialize (HM' 0 0 ltac:(lia) ltac:(lia)). cbn [fst snd] in HM'.
  replace (qx + 0) with qx in HM' by lia. replace (qy + 0) with qy in HM' by lia.
  pose proof (HM i j Hi Hj) as HMi. cbn [fst snd] in HMi. rewrite HMi in E3. cbn [image_tile] in E3.
  rewrite E3 in HM'. injection HM' as -> ->. apply N. reflexivity.
Qed.

Definition machine_grid : list (list tile) :=
  [[Assembler 0 0; Assembler 1 0; Assembler 2 0];
   [Assembler 0 1; Assembler 1 1; Assembler 2 1];
   [Assembler 0 2; Assembler 1 2; Assembler 2 2]].
Example C19_example : machine_at (layout_of machine_grid) (0, 0) /\
  read_grid (map (map (fun t => JObj [("tile", tile_write t)])) machine_grid) = Some machine_grid.
Proof.
  split; [|reflexivity]. intros i j Hi Hj.
  assert (C : (i = 0 \/ i = 1 \/ i = 2) /\ (j = 0 \/ j = 1 \/ j = 2)) by lia.
  destruct C as [[->|[->| ->]] [->|[->| ->]]]; reflexivity.
Qed.

(** * C20 *)
(** [drawable_grid h w g]: rectangular, non-empty, made of empty and filler
    tiles, belts that do not turn back, undergrounds and splitters. *)
Theorem C20_round_trip h w g : drawable_grid h w g -> decode (lines_of (encode g)) = Some g.
Proof. apply picture_round_trip. Qed.

Theorem C20_injective h w g h' w' g' : drawable_grid h w g -> drawable_grid h' w' g' ->
  encode g = encode g' -> g = g'.
Proof.
  intros G G' E. apply picture_round_trip in G. apply picture_round_trip in G'. congruence.
Qed.

(** A session: the pictures printed one after another by encode mode, fed to
    decode mode, give back the sequence of grids. *)
Theorem C20_stream gs : (forall g, In g gs -> exists h w, drawable_grid h w g) ->
  decode_stream [] (lines_of (flat_map (fun g => (encode g ++ [10])%list) gs)) = Some gs.
Proof. apply picture_stream. Qed.

(** Blanks at the ends of the lines, like those of an indented or a Windows
    file, do no harm.  The list has the blank characters of Unicode. *)
Definition blanks (l : list Z) : Prop := Forall (fun c => In c [9; 10; 11; 12; 13; 28; 29; 30; 31; 32; 133; 160; 5760;
  8192; 8193; 8194; 8195; 8196; 8197; 8198; 8199; 8200; 8201; 8202; 8232; 8233; 8239; 8287; 12288]) l.
Theorem C20_indented gs lines : (forall g, In g gs -> exists h w, drawable_grid h w g) ->
  Forall2 (fun l l' => exists b e, blanks b /\ blanks e /\ l' = (b ++ l ++ e)%list) (lines_of (flat_map (fun g => (encode g ++ [10])%list) gs)) lines ->
  decode_stream [] lines = Some gs.
Proof.
  intros D F. rewrite <- (C20_stream gs D). apply stream_stripped. clear D. induction F as [|l l' ls ls' (b & e & Bb & Be & ->) F IH]; [constructor|constructor; [|exact IH]].
  assert (X : forall k, blanks k -> Forall (fun c => is_space c = true) k) by (intros k; apply Forall_impl; intros c Hc; repeat (destruct Hc as [<-|Hc]; [reflexivity|]); destruct Hc).
  apply strip_padded; apply X; assumption.
Qed.

(** Whatever [decode] returns was drawn: every cell of the result has the
    character found at its place, every column between cells is blank, and every
    line inside the frame is a row. ([inner] drops the first and last element:
    the frame.) *)
Theorem C20_decode_faithful lines g : decode lines = Some g ->
  forall i line, nth_error (inner lines) i = Some line ->
  exists row, nth_error g i = Some row /\ List.length row = Nat.div2 (List.length (hd [] lines)) /\
    forall j c, nth_error (inner line) j = Some c ->
      if Nat.odd j then c = 32
      else exists t, nth_error row (Nat.div2 j) = Some t /\ drawable t /\ encode_tile t = c.
Proof. apply decode_faithful. Qed.

(** A grid with an inserter or an assembling machine is drawn, but the picture
    is rejected rather than read back as something else. *)
Theorem C20_undrawable_rejected h w g i j : rect h w g -> (i < h)%nat -> (j < w)%nat ->
  valid_tile (nth j (nth i g []) Empty) -> ~ drawable (nth j (nth i g []) Empty) ->
  decode (encode_lines g) = None.
Proof. apply picture_undrawable. Qed.

Example C20_example : drawable_grid 2 3 sample_layout /\
  lines_of (encode sample_layout) =
   [[9484; 9472; 9472; 9472; 9472; 9472; 9488];
    [9474; 8594; 32; 68; 32; 8594; 9474];
    [9474; 32; 32; 100; 32; 8594; 9474];
    [9492; 9472; 9472; 9472; 9472; 9472; 9496]].
Proof.
  split; [|reflexivity]. split; [split; [reflexivity|repeat constructor]|].
  split; [lia|]. split; [lia|].
  intros r t Hr Ht. cbn in Hr. destruct Hr as [<-|[<-|[]]]; cbn in Ht;
    destruct Ht as [<-|[<-|[<-|[]]]]; cbn; try exact I; discriminate.
Qed.

Print Assumptions C15_vectors.
Print Assumptions C15_group.
Print Assumptions C15_factorio.
Print Assumptions C16_read_write.
Print Assumptions C16_write_injective.
Print Assumptions C16_read_valid.
Print Assumptions C17_turns.
Print Assumptions C17_flips.
Print Assumptions C17_total.
Print Assumptions C18_valid_layout.
Print Assumptions C18_feeds.
Print Assumptions C19_machine_refuted.
Print Assumptions C20_round_trip.
Print Assumptions C20_injective.
Print Assumptions C20_stream.
Print Assumptions C20_indented.
Print Assumptions C20_decode_faithful.
Print Assumptions C20_undrawable_rejected.
