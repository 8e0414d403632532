(** Proofs about parse_network: what the tracing of lines colours. *)
From Coq Require Import ZArith List Bool Lia.
From Verif Require Import Spec_Tile Spec_Layout M_Json M_Tile M_Dict M_Network M_Template Spec_Network Spec_Balancer Spec_Interchange Spec_Parse M_Parse P_Tile P_Layout P_List P_Template P_Walk P_Trace.
Import ListNotations.
Open Scope Z_scope.

Lemma dx_step d : dx d = step_x d.
Proof. destruct d; reflexivity. Qed.
Lemma dy_step d : dy d = step_y d.
Proof. destruct d; reflexivity. Qed.
Lemma reverse_opposite d : reverse d = opposite d.
Proof. destruct d; reflexivity. Qed.
Lemma next_anticlockwise d : next d = anticlockwise d.
Proof. destruct d; reflexivity. Qed.
Lemma dir_eqb_eq d e : dir_eqb d e = true <-> d = e.
Proof. destruct d, e; cbn; split; congruence. Qed.
Lemma pos_eqb_eq (p q : pos) : pos_eqb p q = true <-> p = q.
Proof. unfold pos_eqb. destruct p as [a b], q as [c d]. cbn [fst snd]. rewrite andb_true_iff, !Z.eqb_eq. split; [intros [-> ->]; reflexivity|intros [= -> ->]; auto]. Qed.
Lemma set_same cm p c : set_colour cm p c p = Some c.
Proof. unfold set_colour. rewrite (proj2 (pos_eqb_eq p p) eq_refl). reflexivity. Qed.
Lemma set_other cm p c q : q <> p -> set_colour cm p c q = cm q.
Proof. intros N. unfold set_colour. destruct (pos_eqb q p) eqn:E; [apply pos_eqb_eq in E; contradiction|reflexivity]. Qed.

Section Shape.
  Variables (w h : Z).
  Let A := rectangle w h.
  Lemma in_shape_inside p : in_shape w h 0 p = true <-> inside A p.
  Proof. unfold in_shape, inside. cbn [A rectangle aw ah]. rewrite !andb_true_iff, !Z.leb_le, !Z.ltb_lt. lia. Qed.
  Lemma in_shape_low low p : in_shape w h low p = true <-> 0 <= fst p < w /\ low <= snd p < h.
  Proof. unfold in_shape. rewrite !andb_true_iff, !Z.leb_le, !Z.ltb_lt. lia. Qed.
  Lemma ahead_at p d k : ahead A p d k = (if insideb A (fst p + k * step_x d, snd p + k * step_y d) then Some (fst p + k * step_x d, snd p + k * step_y d) else None).
  Proof. reflexivity. Qed.
  Lemma ahead_some p d k q : ahead A p d k = Some q <-> q = (fst p + k * step_x d, snd p + k * step_y d) /\ inside A q.
  Proof.
    rewrite ahead_at. destruct (insideb A (fst p + k * step_x d, snd p + k * step_y d)) eqn:E.
    - apply insideb_iff in E. split; [intros H; injection H as <-; auto|intros [-> _]; reflexivity].
    - split; [discriminate|]. intros [-> I]. apply insideb_iff in I. congruence.
  Qed.
  Lemma neighbour_some p d q : neighbour A p d = Some q <-> q = (fst p + step_x d, snd p + step_y d) /\ inside A q.
  Proof.
    unfold neighbour. rewrite ahead_some. replace (1 * step_x d) with (step_x d) by lia. replace (1 * step_y d) with (step_y d) by lia. reflexivity.
  Qed.
  Lemma neighbour_nowhere p d : neighbour A p d = None <-> ~ inside A (fst p + step_x d, snd p + step_y d).
  Proof.
    destruct (neighbour A p d) as [q|] eqn:E; split; try discriminate; try reflexivity.
    - apply neighbour_some in E. destruct E as [-> I]. contradiction.
    - intros _ I. rewrite (proj2 (neighbour_some p d _) (conj eq_refl I)) in E. discriminate.
  Qed.
End Shape.

(** The bounds of the recursions suffice, for every grid of tiles. *)
Section Fuel.
  Variables (w h : Z) (T : Z * Z -> tile).
  Lemma walk_more low d e vx vy : forall f k p, walk w h T f low d e vx vy p <> None -> walk w h T (f + k) low d e vx vy p = walk w h T f low d e vx vy p.
  Proof.
    induction f as [|f IH]; intros k p; [intros X; contradiction X; reflexivity|]. cbn [walk Nat.add]. destruct (in_shape _ _ _ _); [|reflexivity].
    destruct (is_underground _ _ _); [reflexivity|]. destruct (is_underground _ _ _); [reflexivity|]. apply IH.
  Qed.
  (** How many steps fit into the grid. *)
  Definition room (vx vy : Z) (p : Z * Z) : Z :=
    (if vx =? 1 then w - fst p else if vx =? -1 then fst p + 1 else 0) + (if vy =? 1 then h - snd p else if vy =? -1 then snd p + 1 else 0).
  Lemma walk_fuel low d e vx vy : In (vx, vy) [(1, 0); (0, -1); (-1, 0); (0, 1)] -> 0 <= low ->
    forall f k p, 0 <= fst p < w -> 0 <= snd p < h -> room vx vy p <= Z.of_nat f -> walk w h T (f + k) low d e vx vy p = walk w h T f low d e vx vy p.
  Proof.
    intros V Hl. induction f as [|f IH]; intros k p Hx Hy Hr.
    - exfalso. unfold room in Hr. destruct V as [[= <- <-]|[[= <- <-]|[[= <- <-]|[[= <- <-]|[]]]]]; cbn [Z.eqb Pos.eqb] in Hr; lia.
    - cbn [walk Nat.add]. destruct (in_shape w h low _) eqn:Es; [|reflexivity]. destruct (is_underground _ _ _); [reflexivity|]. destruct (is_underground _ _ _); [reflexivity|].
      apply in_shape_low in Es. cbn [fst snd] in Es. apply IH; cbn [fst snd]; try lia. unfold room in *. cbn [fst snd].
      destruct V as [[= <- <-]|[[= <- <-]|[[= <- <-]|[[= <- <-]|[]]]]]; cbn [Z.eqb Pos.eqb] in *; lia.
  Qed.
  Lemma walk_steps_enough low d e c k p : 0 <= low -> inside (rectangle w h) p ->
    walk w h T (walk_steps w h + k) low d e (dx c) (dy c) p = walk w h T (walk_steps w h) low d e (dx c) (dy c) p.
  Proof.
    intros Hl [Hx Hy]. cbn [rectangle aw ah] in Hx, Hy. apply walk_fuel; auto.
    - destruct c; cbn; auto.
    - unfold walk_steps, room. rewrite Z2Nat.id by lia. destruct c; rewrite dx_step, dy_step; cbn [step_x step_y Z.eqb Pos.eqb]; lia.
  Qed.

  Definition uncoloured (cm : mapping) : nat := List.length (filter (fun p => match cm p with None => true | _ => false end) (all_tiles w h)).
  Lemma all_tiles_in p : In p (all_tiles w h) <-> inside (rectangle w h) p.
  Proof.
    unfold all_tiles, inside. cbn [rectangle aw ah]. rewrite in_flat_map. split.
    - intros (x & Hx & Hp). apply in_map_iff in Hp. destruct Hp as (y & <- & Hy). apply in_seq in Hx, Hy. cbn [fst snd]. lia.
    - destruct p as [x y]. cbn [fst snd]. intros [Hx Hy]. exists (Z.to_nat x). split; [apply in_seq; lia|]. apply in_map_iff. exists (Z.to_nat y). split; [f_equal; lia|apply in_seq; lia].
  Qed.
  Lemma filter_less {X} (f g : X -> bool) l x : In x l -> f x = true -> g x = false -> (forall y, g y = true -> f y = true) -> (List.length (filter g l) < List.length (filter f l))%nat.
  Proof.
    intros Hx Fx Gx Sub. induction l as [|y l IH]; [contradiction|].
    assert (LE : (List.length (filter g l) <= List.length (filter f l))%nat).
    { clear IH Hx. induction l as [|z l IH]; [apply le_n|]. cbn [filter]. destruct (g z) eqn:Gz; [rewrite (Sub z Gz); cbn [List.length]; lia|]. destruct (f z); cbn [List.length]; lia. }
    cbn [filter]. destruct Hx as [->|Hx].
    - rewrite Fx, Gx. cbn [List.length]. lia.
    - specialize (IH Hx). destruct (g y) eqn:Gy; [rewrite (Sub y Gy); cbn [List.length]; lia|]. destruct (f y); cbn [List.length]; lia.
  Qed.
  Lemma uncoloured_less cm p c : inside (rectangle w h) p -> cm p = None -> (uncoloured (set_colour cm p c) < uncoloured cm)%nat.
  Proof.
    intros Hp Hn. unfold uncoloured. apply (filter_less _ _ _ p); [apply all_tiles_in; exact Hp|rewrite Hn; reflexivity|rewrite set_same; reflexivity|].
    intros y. destruct (pos_dec y p) as [->|N]; [rewrite set_same; discriminate|rewrite set_other by assumption; auto].
  Qed.
  Lemma trace_fuel : forall f k cm c p b, (uncoloured cm < f)%nat -> trace w h T (f + k) cm c p b = trace w h T f cm c p b.
  Proof.
    induction f as [|f IH]; intros k cm c p b Hf; [lia|]. cbn [trace Nat.add]. destruct (in_shape w h 0 p) eqn:Es; [|reflexivity]. apply in_shape_inside in Es.
    assert (X : match cm p with Some c0 => if c0 =? c then Some cm else None | None => let cm0 := set_colour cm p c in obind (next_tile w h T p b) (fun q => trace w h T (f + k) cm0 c q b) end
              = match cm p with Some c0 => if c0 =? c then Some cm else None | None => let cm0 := set_colour cm p c in obind (next_tile w h T p b) (fun q => trace w h T f cm0 c q b) end).
    { destruct (cm p) eqn:Ec; [reflexivity|]. destruct (next_tile w h T p b) as [q|]; [|reflexivity]. cbn [obind]. apply IH. pose proof (uncoloured_less cm p c Es Ec). lia. }
    destruct (T p); try reflexivity; exact X.
  Qed.
  Lemma uncoloured_start cm : (uncoloured cm < trace_steps w h)%nat.
  Proof.
    unfold uncoloured, trace_steps. assert (X : (List.length (filter (fun p => match cm p with None => true | _ => false end) (all_tiles w h)) <= List.length (all_tiles w h))%nat).
    { generalize (all_tiles w h). induction l as [|y l IH]; [apply le_n|]. cbn [filter List.length]. destruct (cm y); cbn [List.length]; lia. }
    assert (Y : List.length (all_tiles w h) = (Z.to_nat w * Z.to_nat h)%nat).
    { unfold all_tiles. rewrite flat_map_concat_map. generalize (seq 0 (Z.to_nat w)) (seq_length (Z.to_nat w) 0). generalize (Z.to_nat w). intros k l. revert k.
      induction l as [|y l IH]; intros k <-; [reflexivity|]. cbn [map concat]. rewrite app_length, map_length, seq_length, (IH _ eq_refl). cbn [List.length]. lia. }
    rewrite Y in X. destruct (Z.le_gt_cases w 0) as [Hw|Hw]; [replace (Z.to_nat w) with 0%nat in X by lia; lia|].
    destruct (Z.le_gt_cases h 0) as [Hh|Hh]; [replace (Z.to_nat h) with 0%nat in X by lia; lia|]. rewrite Z2Nat.inj_mul by lia. lia.
  Qed.
  Lemma trace_steps_enough k cm c p b : trace w h T (trace_steps w h + k) cm c p b = trace w h T (trace_steps w h) cm c p b.
  Proof. apply trace_fuel, uncoloured_start. Qed.
End Fuel.
