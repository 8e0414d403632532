(** Property theorems about network.py: C25-C29, C63. *)
From Coq Require Import String Ascii ZArith QArith List Bool Lia Lqa Permutation Sorted.
From Verif Require Import M_Json M_Dict P_Dict M_Solve P_Solve M_Network Spec_Network P_Network P_Benes P_Wiring P_Network2.
Import ListNotations.
Local Open Scope string_scope.
Open Scope Z_scope.

(** * C25: network files *)
(** Colours a file can express: -1 stands for a missing belt. *)
Definition writable (net : network) : Prop :=
  forall n, In n net -> Forall (fun c => c <> Some (-1)) [fst (fst n); snd (fst n); fst (snd n); snd (snd n)].

(** Blank texts in what follows: tabulators, ends of lines, separators (28 to 31)
    and spaces, as str.isspace() has it for ASCII. *)
Theorem C25_blank s : P_Solve.blank s <-> Forall (fun c => In (Ascii.nat_of_ascii c) [9; 10; 11; 12; 13; 28; 29; 30; 31; 32]%nat) (list_ascii_of_string s).
Proof.
  assert (X : forall c, is_space c = true <-> In (Ascii.nat_of_ascii c) [9; 10; 11; 12; 13; 28; 29; 30; 31; 32]%nat).
  { intros c. unfold is_space. generalize (Ascii.nat_of_ascii c) as n. intros n. rewrite orb_true_iff, !andb_true_iff, !Nat.leb_le. cbn [In]. lia. }
  unfold P_Solve.blank. induction s as [|c s IH]; [split; [constructor|reflexivity]|]. change (list_ascii_of_string (String c s)) with (c :: list_ascii_of_string s).
  rewrite Forall_cons_iff, <- IH, <- X. cbn [all_chars]. rewrite andb_true_iff. reflexivity.
Qed.

(** Any file that lists the splitters of a network in order, with comments and
    blank lines in between and free spacing, is read as that network; [last] is
    a final line that has no newline. *)
Theorem C25_read_any_layout net1 net2 lines last :
  writable (net1 ++ net2)%list -> file_lines net1 lines ->
  (last = "" /\ net2 = [] \/ last <> "" /\ file_lines net2 [last]) ->
  open_network (String.concat "" (map (fun l => l ++ String newline "") lines) ++ last) = Some (net1 ++ net2)%list.
Proof.
  intros U FL L. unfold open_network.
  change (fun l => l ++ String newline "") with line_text. rewrite (readlines_all lines last (file_lines_one _ _ FL)).
  assert (Us : forall n, In n (net1 ++ net2)%list -> usable (fst (fst n)) /\ usable (snd (fst n)) /\ usable (fst (snd n)) /\ usable (snd (snd n))).
  { intros n H. specialize (U n H). inversion U as [|? ? U1 V1]; subst. inversion V1 as [|? ? U2 V2]; subst. inversion V2 as [|? ? U3 V3]; subst. inversion V3; subst. repeat split; assumption. }
  destruct L as [[-> ->]|[Nl FL2]].
  - cbn [readlines]. rewrite !app_nil_r in *. apply (open_lines_file (fun _ => String newline "")); [reflexivity|exact FL|]. apply Forall_forall. exact Us.
  - rewrite readlines_last; [|pose proof (file_lines_one _ _ FL2) as O; inversion O; assumption|exact Nl].
    pose proof (open_lines_file (fun _ => String newline "") ltac:(reflexivity) net1 lines FL ltac:(apply Forall_forall; intros n H; apply Us, in_or_app; auto)) as E1.
    pose proof (open_lines_file (fun _ => "") ltac:(reflexivity) net2 [last] FL2 ltac:(apply Forall_forall; intros n H; apply Us, in_or_app; auto)) as E2.
    cbn [map] in E2. rewrite string_app_nil in E2. unfold line_text. cbn beta in E1.
    revert E1 E2. generalize (map (fun s => s ++ String newline "") lines). clear. intros ls. revert net1.
    induction ls as [|l ls IH]; intros net1 E1 E2; cbn [app open_lines] in *.
    + injection E1 as <-. exact E2.
    + destruct (strip l) as [|c r]; [apply IH; assumption|]. destruct (Ascii.eqb c "#"); [apply IH; assumption|].
      destruct (omap parse_int (split (String c r))) as [cs|]; [|discriminate]. cbn [obind] in *.
      destruct (map of_number cs) as [|a [|b [|d [|e [|]]]]]; try discriminate.
      destruct (open_lines ls) as [net|] eqn:El; [|discriminate]. cbn [obind] in E1. injection E1 as <-.
      rewrite (IH net eq_refl E2). reflexivity.
Qed.

Theorem C25_round_trip net : writable net -> open_network (save_network net) = Some net.
Proof.
  intros U. rewrite save_lines. rewrite <- (string_app_nil (String.concat _ _)).
  rewrite <- (app_nil_r net) at 2. apply (C25_read_any_layout net [] _ ""); [rewrite app_nil_r; exact U|apply saved_file|auto].
Qed.

Example C25_file : open_network
"# a 3 to 3 balancer

  0 0   1 1
0 3 2 2 
	# loop
2 1 3 -1
2 -1 3 3" = Some [((Some 0, Some 0), (Some 1, Some 1)); ((Some 0, Some 3), (Some 2, Some 2));
                 ((Some 2, Some 1), (Some 3, None)); ((Some 2, None), (Some 3, Some 3))].
Proof. vm_compute. reflexivity. Qed.
Example C25_writable_met : writable [((Some 0, Some 3), (Some 2, None)); ((Some (-2), Some 3), (Some 2, Some 2))].
Proof. intros n [<-|[<-|[]]]; cbn; repeat constructor; discriminate. Qed.

(** * C26: flipping *)
Theorem C26_involution net : flip_network (flip_network net) = net /\ rev (flip_network (rev (flip_network net))) = net.
Proof.
  assert (E : forall l, flip_network (flip_network l) = l).
  { intros l. unfold flip_network. rewrite map_map. erewrite map_ext; [apply map_id|]. intros [a b]. reflexivity. }
  split; [apply E|]. unfold flip_network at 1. rewrite <- map_rev, rev_involutive. apply E.
Qed.
Theorem C26_exchanges_ends net :
  (forall c, consumed (flip_network net) c = produced net c /\ produced (flip_network net) c = consumed net c) /\
  (forall ic n oc m, get_input_output_colours net = Some ((ic, n), (oc, m)) ->
     get_input_output_colours (flip_network net) = Some ((oc, m), (ic, n)) /\
     get_input_output_colours (rev (flip_network net)) = Some ((oc, m), (ic, n))).
Proof.
  split; [apply flip_counts|]. intros ic n oc m H. apply ends_spec in H. rewrite !ends_spec.
  assert (G : forall net', (forall c, consumed net' c = produced net c /\ produced net' c = consumed net c) -> has_ends net' oc m ic n).
  { intros net' Fl. destruct H as ((H1 & H2) & H3 & H4 & H5). repeat split; try lia.
    - destruct (Fl oc). lia.
    - destruct (Fl ic). lia.
    - intros c N1 N2. destruct (Fl c). rewrite H, H0. symmetry. apply H5; assumption. }
  split; apply G; intros c; [apply flip_counts|].
  destruct (flip_counts net c) as [<- <-]. unfold consumed, produced.
  split; apply occurs_perm; apply Permutation_flat_map, Permutation_sym, Permutation_rev.
Qed.
Example C26_ends : get_input_output_colours [((Some 0, Some 0), (Some 1, Some 2)); ((Some 0, Some 1), (Some 2, Some 2))] = Some ((0, 3), (2, 3)).
Proof. vm_compute. reflexivity. Qed.

(** * C63: the ends of a network *)
(** get_input_output_colours answers exactly when the network has a single input
    colour and a single output colour, and then gives their numbers of free
    belts; otherwise it raises. *)
Theorem C63_ends net : 
  (forall ic n oc m, get_input_output_colours net = Some ((ic, n), (oc, m)) <-> has_ends net ic n oc m) /\
  (get_input_output_colours net = None <-> ~ exists ic n oc m, has_ends net ic n oc m).
Proof.
  split; [intros; apply ends_spec|]. split.
  - intros E (ic & n & oc & m & H). apply ends_spec in H. congruence.
  - intros H. destruct (get_input_output_colours net) as [[[ic n] [oc m]]|] eqn:E; [|reflexivity].
    exfalso. apply H. exists ic, n, oc, m. apply ends_spec. exact E.
Qed.
(** A network may contain no colour other than its ends twice over: a second
    colour with free inputs is rejected. *)
Example C63_two_inputs : get_input_output_colours [((Some 0, Some 1), (Some 2, Some 2))] = None.
Proof. vm_compute. reflexivity. Qed.

(** * C27, C28: Benes networks *)
Theorem C27_terminates_with_ends order n : (forall s l, Permutation (order s l) l) -> 2 <= n ->
  exists net oc, create_benes_network order n = Some net /\ has_ends net 0 n oc n /\
    ~ In None (input_slots net ++ output_slots net) /\ produced net 0 = 0.
Proof.
  intros Ho Hn. destruct (create_total order Ho (Z.to_nat (2 * n)) n Hn ltac:(lia)) as (net & oc & k & E & [Cl En So _ _]).
  exists net, oc. repeat split; try assumption; try apply En.
Qed.
Theorem C27_small order n : n < 2 -> create_benes_network order n = None.
Proof. intros H. unfold create_benes_network. destruct (Z.to_nat (2 * n)); cbn; [reflexivity|]. destruct (Z.ltb_spec n 2); [reflexivity|lia]. Qed.

Theorem C28_balances order n net ic ni oc no : (forall s l, Permutation (order s l) l) ->
  create_benes_network order n = Some net ->
  get_input_output_colours net = Some ((ic, ni), (oc, no)) ->
  ni = n /\ no = n /\ balances net ic (Z.to_nat n) oc (Z.to_nat n).
Proof.
  intros Ho C G. destruct (Z_lt_le_dec n 2) as [H|Hn]; [rewrite (C27_small order n H) in C; discriminate|].
  destruct (create_total order Ho (Z.to_nat (2 * n)) n Hn ltac:(lia)) as (net' & oc' & k & E & B).
  unfold create_benes_network in C. assert (net' = net) by congruence. subst net'.
  pose proof (proj2 (ends_spec net 0 n oc' n) (ok_ends _ _ _ _ B)) as G'. rewrite G' in G. injection G as <- <- <- <-.
  split; [reflexivity|]. split; [reflexivity|]. apply (benes_balances (Z.to_nat n) net oc' k); rewrite Z2Nat.id by lia; assumption.
Qed.

(** The network of size three, wired with one output looped back, and a flow. *)
Definition benes3 : network :=
  [((Some 3, Some 0), (Some 1, Some 2)); ((Some 0, Some 0), (Some 1, Some 2));
   ((Some 1, Some 1), (Some 3, Some 3)); ((Some 2, Some 2), (Some 3, Some 3))].
Definition wires3 (k : sink) : source :=
  match k with
  | ToSplitter 0 false => FromSplitter 3 true | ToSplitter 0 true => FromInput 0
  | ToSplitter 1 false => FromInput 1 | ToSplitter 1 true => FromInput 2
  | ToSplitter 2 false => FromSplitter 0 false | ToSplitter 2 true => FromSplitter 1 false
  | ToSplitter 3 false => FromSplitter 0 true | ToSplitter 3 true => FromSplitter 1 true
  | ToOutput 0 => FromSplitter 2 false | ToOutput 1 => FromSplitter 2 true | ToOutput 2 => FromSplitter 3 false
  | _ => FromInput 0
  end.
Definition flow3 (s : source) : Q :=
  match s with
  | FromInput 0 => 1 | FromInput 1 => 2 | FromInput _ => 6
  | FromSplitter 0 _ => 2 | FromSplitter 1 _ => 4 | FromSplitter _ _ => 3
  end.
Example C28_network : create_benes_network (fun _ l => l) 3 = Some benes3 /\ get_input_output_colours benes3 = Some ((0, 3), (3, 3)).
Proof. vm_compute. auto. Qed.
Example C28_wiring : wiring benes3 0 3 3 3 wires3.
Proof.
  repeat split.
  - intros [[|[|[|j]]]|[|[|[|[|i]]]] [|]] c; cbn; try (intros H; exact H); try discriminate; destruct i; discriminate.
  - intros [[|[|[|j]]]|[|[|[|[|i]]]] [|]] [[|[|[|j']]]|[|[|[|[|i']]]] [|]]; cbn; try congruence; intros H H'; exfalso;
      try (apply H; destruct i; reflexivity); try (apply H'; destruct i'; reflexivity).
  - intros [[|[|[|j]]]|[|[|[|[|i]]]] [|]]; cbn; intros H; try (exfalso; apply H; try destruct i; reflexivity);
      [exists (ToSplitter 0 true)|exists (ToSplitter 1 false)|exists (ToSplitter 1 true)|
       exists (ToSplitter 3 false)|exists (ToSplitter 2 false)|exists (ToSplitter 3 true)|exists (ToSplitter 2 true)|
       exists (ToOutput 1)|exists (ToOutput 0)|exists (ToSplitter 0 false)|exists (ToOutput 2)]; cbn; split; congruence.
Qed.
Example C28_steady : steady benes3 0 3 3 3 wires3 flow3.
Proof.
  intros [|[|[|[|i]]]] [|]; cbn; intros H; try reflexivity; exfalso; apply H; destruct i; reflexivity.
Qed.

(** * C29: colour clean-up *)
Theorem C29_fix_colours order net : (forall l, Permutation (order l) l) ->
  exists f k, fix_colours order net = Some (recolour f net) /\
    (forall c d, has_colour net c -> has_colour net d -> f c = f d -> c = d) /\
    (forall v, 0 <= v < k <-> exists c, has_colour net c /\ f c = v) /\
    (* colours of network inputs come first, colours of network outputs last *)
    (forall c d, has_colour net c -> has_colour net d -> produced net c = 0 -> 0 < produced net d -> f c < f d) /\
    (forall c d, has_colour net c -> has_colour net d -> consumed net c = 0 -> 0 < consumed net d -> f d < f c).
Proof.
  intros Ho. set (all := set_union (input_set net) (output_set net)).
  assert (A : forall c, has_colour net c <-> In c all).
  { intros c. unfold has_colour. rewrite <- colours_in. apply all_colours. }
  assert (Pc : forall c, 0 <= produced net c) by (intros; apply occurs_nonneg).
  assert (Cc : forall c, 0 <= consumed net c) by (intros; apply occurs_nonneg).
  assert (I : forall c, In c (set_minus (input_set net) (output_set net)) <-> 0 < consumed net c /\ produced net c = 0).
  { intros c. rewrite minus_in, input_set_in, output_set_in. specialize (Pc c). lia. }
  assert (B : forall c, In c (set_inter (input_set net) (output_set net)) <-> 0 < consumed net c /\ 0 < produced net c).
  { intros c. rewrite inter_in, input_set_in, output_set_in. reflexivity. }
  assert (O : forall c, In c (set_minus (output_set net) (input_set net)) <-> 0 < produced net c /\ consumed net c = 0).
  { intros c. rewrite minus_in, input_set_in, output_set_in. specialize (Cc c). lia. }
  exists (new_colour order net), (Z.of_nat (length all)).
  split; [apply (fix_colours_total order net Ho)|].
  assert (Inj : forall c d, In c all -> In d all -> new_colour order net c = new_colour order net d -> c = d) by (intros c d; apply (new_colour_inj order net Ho)).
  split; [intros c d Hc Hd; apply Inj; apply A; assumption|].
  assert (Rng : forall c, In c all -> 0 <= new_colour order net c < Z.of_nat (length all)).
  { intros c Hc. pose proof (all_length net) as AL. fold all in AL. destruct (new_colour_place order net Ho c Hc) as [(_ & k & _ & -> & R)|[(_ & k & _ & -> & R)|(_ & k & _ & -> & R)]]; lia. }
  split; [|split].
  - intros v. split.
    + intros Hv. assert (S : incl (map Z.of_nat (seq 0 (length all))) (map (new_colour order net) all)).
      { apply NoDup_length_incl.
        - assert (G : forall l, incl l all -> NoDup l -> NoDup (map (new_colour order net) l)).
          { induction l as [|x l IH]; intros Il N; cbn; constructor; inversion N; subst.
            - rewrite in_map_iff. intros (y & E & Hy). apply Inj in E; [congruence| |]; apply Il; [right|left]; auto.
            - apply IH; [|assumption]. intros y Hy. apply Il. right. exact Hy. }
          apply G; [apply incl_refl|apply all_nodup].
        - rewrite !map_length, seq_length. apply Nat.le_refl.
        - intros x Hx. apply in_map_iff in Hx. destruct Hx as (c & <- & Hc). specialize (Rng c Hc).
          apply in_map_iff. exists (Z.to_nat (new_colour order net c)). split; [lia|]. apply in_seq. lia. }
      specialize (S v). rewrite !in_map_iff in S. destruct S as (c & E & Hc).
      { exists (Z.to_nat v). split; [lia|]. apply in_seq. lia. }
      exists c. split; [apply A; exact Hc|exact E].
    + intros (c & Hc & <-). apply Rng, A, Hc.
  - intros c d Hc Hd P0 P1. apply A in Hc, Hd.
    destruct (new_colour_place order net Ho c Hc) as [(Ic & k & _ & -> & R)|[(Ic & k & _ & -> & R)|(Ic & k & _ & -> & R)]]; [|apply B in Ic; lia|apply O in Ic; lia].
    destruct (new_colour_place order net Ho d Hd) as [(Id & j & _ & -> & R')|[(Id & j & _ & -> & R')|(Id & j & _ & -> & R')]]; [apply I in Id|..]; lia.
  - intros c d Hc Hd P0 P1. apply A in Hc, Hd.
    destruct (new_colour_place order net Ho c Hc) as [(Ic & k & _ & -> & R)|[(Ic & k & _ & -> & R)|(Ic & k & _ & -> & R)]]; [apply I in Ic; lia|apply B in Ic; lia|].
    destruct (new_colour_place order net Ho d Hd) as [(Id & j & _ & -> & R')|[(Id & j & _ & -> & R')|(Id & j & _ & -> & R')]]; [| |apply O in Id]; lia.
Qed.

(** deduplicate_network counts the splitters up to the order of their belts. *)
Theorem C29_deduplicate net :
  let d := deduplicate_network net in
  NoDup (map fst d) /\
  (forall nd, In nd net -> exists s n, In (s, n) d /\ same_node nd s) /\
  (forall s n, In (s, n) d -> (exists nd, In nd net /\ same_node nd s) /\
     exists copies others, Permutation (copies ++ others) net /\ Z.of_nat (length copies) = n /\
       Forall (fun nd => same_node nd s) copies /\ Forall (fun nd => ~ same_node nd s) others) /\
  (forall s n t m, In (s, n) d -> In (t, m) d -> same_node s t -> s = t).
Proof.
  cbn zeta. unfold deduplicate_network. destruct (count_fold (map sort_sides net) [] (NoDup_nil _)) as (N & Am & Ks).
  assert (SS : forall x, sort_sides (sort_sides x) = sort_sides x) by (intros x; unfold sort_sides; cbn [fst snd]; rewrite !sort_side_idem; reflexivity).
  assert (Key : forall s n, In (s, n) (fold_left count_one (map sort_sides net) []) -> exists nd, In nd net /\ s = sort_sides nd).
  { intros s n H. apply (in_map fst) in H. cbn [fst] in H. apply Ks in H. destruct H as [[]|H]. apply in_map_iff in H. destruct H as (nd & <- & H). eauto. }
  split; [exact N|]. split; [|split].
  - intros nd H. assert (In (sort_sides nd) (map fst (fold_left count_one (map sort_sides net) []))) as K by (apply Ks; right; apply in_map; exact H).
    apply in_map_iff in K. destruct K as ([s n] & E & K). cbn in E. subst s. exists (sort_sides nd), n. split; [exact K|]. apply same_sorted. symmetry. apply SS.
  - intros s n H. destruct (Key s n H) as (nd & Hnd & E).
    assert (Eq : forall x, same_node x s <-> sort_sides x = s) by (intros x; rewrite same_sorted, E, SS; reflexivity).
    split; [exists nd; split; [exact Hnd|apply Eq; auto]|].
    exists (filter (fun x => splitter_eqb s (sort_sides x)) net), (filter (fun x => negb (splitter_eqb s (sort_sides x))) net).
    split; [|split; [|split]].
    + clear. induction net as [|x l IH]; cbn; [apply perm_nil|]. destruct (splitter_eqb s (sort_sides x)); cbn; [apply perm_skip; exact IH|].
      etransitivity; [symmetry; apply Permutation_middle|]. constructor. exact IH.
    + pose proof (Am s) as As. unfold amount in As. rewrite (dget_nodup splitter_eqb splitter_eqb_spec _ _ _ N H) in As. cbn [dget] in As. rewrite As.
      rewrite Z.add_0_l. f_equal. clear. induction net as [|x l IH]; cbn; [reflexivity|]. destruct (splitter_eqb s (sort_sides x)); cbn; congruence.
    + apply Forall_forall. intros x Hx. apply filter_In in Hx. destruct Hx as [_ Hx]. apply Eq. destruct (splitter_eqb_spec s (sort_sides x)); congruence.
    + apply Forall_forall. intros x Hx. apply filter_In in Hx. destruct Hx as [_ Hx]. rewrite Eq. destruct (splitter_eqb_spec s (sort_sides x)); [discriminate|congruence].
  - intros s n t m Hs Ht. rewrite same_sorted. destruct (Key _ _ Hs) as (a & _ & ->). destruct (Key _ _ Ht) as (b & _ & ->). rewrite !SS. auto.
Qed.

(** tidy_network keeps the splitters of fix_colours up to the order of their
    belts and lists those at the inputs first, those at the outputs last. *)
Theorem C29_tidy order net : (forall l, Permutation (order l) l) ->
  exists fixed tidy listed, fix_colours order net = Some fixed /\ tidy_network order net = Some tidy /\
    Forall2 same_node fixed listed /\ Permutation listed tidy /\
    StronglySorted (fun a b => rank fixed a <= rank fixed b) tidy.
Proof.
  intros Ho. pose proof (fix_colours_total order net Ho) as E. set (fixed := rename (new_colour order net) net) in *.
  assert (T : tidy_network order net = Some (sort_by (fun n : splitter => count_in (set_minus (output_set fixed) (input_set fixed)) (snd n) - count_in (set_minus (input_set fixed) (output_set fixed)) (fst n))
     (sort_by (fun n : splitter => none_key (fst (fst n))) (map (fun n => (sort_side_key (fst n), sort_side_key (snd n))) fixed)))).
  { unfold tidy_network. rewrite E. reflexivity. }
  set (listed := map (fun n : splitter => (sort_side_key (fst n), sort_side_key (snd n))) fixed) in *.
  exists fixed, (sort_by (fun n : splitter => count_in (set_minus (output_set fixed) (input_set fixed)) (snd n) - count_in (set_minus (input_set fixed) (output_set fixed)) (fst n))
     (sort_by (fun n : splitter => none_key (fst (fst n))) listed)), listed.
  split; [exact E|]. split; [exact T|]. split; [|split].
  - unfold listed. clear. generalize fixed. intros l. induction l as [|[s t] l IH]; cbn; constructor; [|exact IH].
    unfold same_node, same_belts, sort_side_key. cbn [fst snd]. split; match goal with |- context [if ?b then _ else _] => destruct b end; auto.
  - rewrite !sort_by_perm. reflexivity.
  - match goal with |- StronglySorted _ (sort_by ?key ?l) => pose proof (sort_by_sorted key l) as S; set (tidy := sort_by key l) in *; assert (P : Permutation tidy listed) by (unfold tidy; rewrite !sort_by_perm; reflexivity) end.
    assert (R : forall n, In n tidy -> count_in (set_minus (output_set fixed) (input_set fixed)) (snd n) - count_in (set_minus (input_set fixed) (output_set fixed)) (fst n) = rank fixed n).
    { intros n Hn. apply (Permutation_in _ P) in Hn. unfold listed in Hn. apply in_map_iff in Hn. destruct Hn as (n0 & <- & Hn0). cbn [fst snd].
      assert (Bi : forall c, In c [fst (fst n0); snd (fst n0)] -> forall x, c = Some x -> 0 < consumed fixed x).
      { intros c Hc x ->. apply occurs_in. apply in_flat_map. exists n0. split; [exact Hn0|exact Hc]. }
      assert (Bo : forall c, In c [fst (snd n0); snd (snd n0)] -> forall x, c = Some x -> 0 < produced fixed x).
      { intros c Hc x ->. apply occurs_in. apply in_flat_map. exists n0. split; [exact Hn0|exact Hc]. }
      assert (Pc : forall c, 0 <= produced fixed c) by (intros; apply occurs_nonneg).
      assert (Cc : forall c, 0 <= consumed fixed c) by (intros; apply occurs_nonneg).
      assert (Mo : forall x, 0 < produced fixed x -> mem x (set_minus (output_set fixed) (input_set fixed)) = (consumed fixed x =? 0)).
      { intros x Hx. apply eq_true_iff_eq. rewrite mem_in, minus_in, output_set_in, input_set_in, Z.eqb_eq. specialize (Cc x). lia. }
      assert (Mi : forall x, 0 < consumed fixed x -> mem x (set_minus (input_set fixed) (output_set fixed)) = (produced fixed x =? 0)).
      { intros x Hx. apply eq_true_iff_eq. rewrite mem_in, minus_in, output_set_in, input_set_in, Z.eqb_eq. specialize (Pc x). lia. }
      assert (Lo : forall s, (forall c, In c [fst s; snd s] -> forall x, c = Some x -> 0 < produced fixed x) -> count_in (set_minus (output_set fixed) (input_set fixed)) (sort_side_key s) = leaving fixed (sort_side_key s)).
      { intros [a b] H. unfold count_in, leaving, sort_side_key. cbn [fst snd In] in *.
        destruct a as [a|], b as [b|]; cbn [none_key]; repeat match goal with |- context [if ?x <=? ?y then _ else _] => destruct (x <=? y) end; cbn [fst snd];
        rewrite ?Mo by (eapply H; [|reflexivity]; auto); reflexivity. }
      assert (Li : forall s, (forall c, In c [fst s; snd s] -> forall x, c = Some x -> 0 < consumed fixed x) -> count_in (set_minus (input_set fixed) (output_set fixed)) (sort_side_key s) = entering fixed (sort_side_key s)).
      { intros [a b] H. unfold count_in, entering, sort_side_key. cbn [fst snd In] in *.
        destruct a as [a|], b as [b|]; cbn [none_key]; repeat match goal with |- context [if ?x <=? ?y then _ else _] => destruct (x <=? y) end; cbn [fst snd];
        rewrite ?Mi by (eapply H; [|reflexivity]; auto); reflexivity. }
      unfold rank. cbn [fst snd]. rewrite Lo, Li; [reflexivity|exact Bi|exact Bo]. }
    clear -S R. revert S R. generalize tidy. induction 1 as [|n l S IH F]; intros R; constructor.
    + apply IH. intros m Hm. apply R. right. exact Hm.
    + apply Forall_forall. intros m Hm. rewrite Forall_forall in F. specialize (F m Hm). cbn beta in F.
      rewrite (R n (or_introl eq_refl)), (R m (or_intror Hm)) in F. exact F.
Qed.
Example C29_run : tidy_network (@rev Z) [((Some 7, Some 5), (Some 9, Some 9)); ((Some 4, Some 4), (Some 7, Some 5))]
  = Some [((Some 0, Some 0), (Some 1, Some 2)); ((Some 1, Some 2), (Some 3, Some 3))].
Proof. vm_compute. reflexivity. Qed.
Example C29_order : forall l : list Z, Permutation (rev l) l. Proof. intros. apply Permutation_sym, Permutation_rev. Qed.

Print Assumptions C25_read_any_layout. Print Assumptions C25_round_trip. Print Assumptions C26_involution.
Print Assumptions C26_exchanges_ends. Print Assumptions C63_ends. Print Assumptions C27_terminates_with_ends.
Print Assumptions C27_small. Print Assumptions C28_balances. Print Assumptions C29_fix_colours.
Print Assumptions C29_deduplicate. Print Assumptions C29_tidy.
