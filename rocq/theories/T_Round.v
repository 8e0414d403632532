(** Property theorems C99: what belt_balancer.py prints, network.py reads. *)
From Coq Require Import String ZArith QArith List Bool Lia Permutation.
From Verif Require Import P_Network P_Network2 P_Benes P_Nonneg P_Similar P_Wiring T_Network.
From Verif Require Import Spec_Cnf Spec_Tile Spec_Layout Spec_Pattern Spec_Main M_Json M_Tile M_Util M_Card M_Dict M_Network Spec_Network M_Template M_Grid M_Oracle M_Balancer M_Optimise M_Solve M_Main
  P_Cnf P_Util P_Util3 P_Card P_Tile P_Layout T_Tile P_List P_Template P_Walk P_Grid P_GridSound P_GridComplete P_Transport T_Grid T_Enumerate P_GridOk P_Gen P_Balancer
  Spec_Balancer P_Trace P_Realise P_Ends T_Balancer P_Lossless T_Lossless Spec_Edge P_Edge T_Edge P_Solve P_Connect P_Main P_Pow2Total P_MainTotal T_Main Spec_Flow Spec_Interchange Spec_Parse M_Parse P_Flow
  P_Parse4 P_Parse5 P_Parse6 P_Parse7 P_Parse8 P_Parse9 T_Parse.
Import ListNotations.
Open Scope Z_scope.

Lemma Forall2_len {X Y} {R : X -> Y -> Prop} {l k} : Forall2 R l k -> List.length l = List.length k.
Proof. induction 1; cbn [List.length]; congruence. Qed.

(** A layout that is built as a network without missing belts says is read,
    and the network printed describes the same layout: it has no missing belts, as
    many inputs and outputs, it is what the layout is built like, and it balances
    exactly when the layout does.  A splitter half at the border counts as an
    input only with [edge], the option --assume-valid-output. *)
Theorem C99_built w h T L net ic n oc m order sets edge : 0 < w -> 0 < h -> valid_layout (rectangle w h) T L ->
  complete net -> realises (rectangle w h) T L net ic n oc m -> ic <> oc -> (0 < n)%nat -> (0 < m)%nat ->
  (forall l, Permutation l (order l)) -> (forall l, Permutation (sets l) l) ->
  ~ late_top_tunnel (rectangle w h) T L ->
  edge = true \/ (forall p, begins (rectangle w h) T (Enter p) p -> ~ is_splitter_tile (T p)) ->
  exists net' ic' oc', parse_command w h T order sets edge = Some net' /\ complete net' /\ List.length net' = List.length net /\
    get_input_output_colours net' = Some ((ic', Z.of_nat n), (oc', Z.of_nat m)) /\
    realises (rectangle w h) T L net' ic' n oc' m /\
    (balances net' ic' n oc' m <-> balanced_layout (rectangle w h) T L).
Proof.
  intros Hw Hh VL Cm (P & wi & HR) Nio Hn Hm Ho Hs Nl He. pose proof (rectangle_wf w h Hw Hh) as WA.
  destruct (proj2 (C97_readable w h T L order edge Hw Hh VL Ho)) as (raw & Er); [split; [exact (built_gaps w h T L WA VL net ic oc n m P wi HR Cm)|exact Nl]|].
  destruct (C96_reads w h T L order edge raw Hw Hh VL Ho Er) as (ss & SS & NO).
  pose proof (built_complete w h T L WA VL net ic oc n m P wi HR Cm edge ss raw He SS NO) as Cr.
  destruct (C29_tidy sets raw Hs) as (fixed & tidy & listed & Ef & Et & F2 & Pm & _). destruct (C29_fix_colours sets raw Hs) as (f & top & Ef' & _).
  assert (fixed = recolour f raw) by congruence. subst fixed.
  assert (Ep : parse_command w h T order sets edge = Some tidy) by (unfold parse_command; rewrite Er; exact Et).
  assert (Ct : complete tidy) by (apply (complete_similar _ _ _ F2 Pm); apply recolour_complete; exact Cr).
  assert (Ln : List.length (pl_inputs P) = n) by apply HR. assert (Lm : List.length (pl_outputs P) = m) by apply HR.
  destruct (C98_printed w h T L order sets edge tidy (pl_inputs P) (pl_outputs P) Hw Hh VL Ho Hs Ep) as (ic' & oc' & Ee & R' & B).
  - exact (built_inlets w h T L WA VL net ic oc n m P wi HR Cm edge He).
  - exact (outlets_listed _ T L net ic oc n m P wi HR).
  - exact (built_through w h T L WA VL net ic oc n m P wi HR Cm Nio).
  - exact (built_face w h T L WA VL net ic oc n m P wi HR Cm edge).
  - intros X. rewrite X in Ln. cbn in Ln. lia.
  - intros X. rewrite X in Lm. cbn in Lm. lia.
  - rewrite Ln, Lm in *. exists tidy, ic', oc'. split; [exact Ep|]. split; [exact Ct|]. split; [|split; [exact Ee|split; [exact R'|exact (B Ct)]]].
    rewrite <- (Permutation_length Pm), <- (Forall2_len F2). unfold recolour. rewrite map_length. destruct NO as [-> _].
    destruct HR as (L1 & N1 & A1 & I1 & _). destruct SS as (N2 & A2 & I2). rewrite <- L1, <- (map_length fst ss), <- (map_length fst (pl_splitters P)).
    apply Permutation_length, NoDup_Permutation; [exact N2|exact N1|]. intros p. split.
    + intros Hp. apply in_map_iff in Hp. destruct Hp as (s & <- & Hp). destruct (A2 s Hp) as (Ip & _ & d & Tp & _). exact (I1 _ d Ip Tp).
    + intros Hp. apply in_map_iff in Hp. destruct Hp as (s & <- & Hp). destruct (A1 s Hp) as (Ip & _ & d & Tp & _). exact (I2 _ d Ip Tp).
Qed.

(** What belt_balancer.py prints for a network without missing belts is read
    back, with as many splitters and ends; and if the network was a balancer then
    so is the network that is read. *)
Theorem C99_program E o net w h g cs top a T ic n oc m order sets : honest E -> nonneg net -> complete net ->
  o_length o = -1 \/ 1 <= o_length o -> get_input_output_colours net = Some ((ic, n), (oc, m)) ->
  main_clauses E o net w h = Some (g, cs, top) -> sat a cs = true -> reads g a T ->
  (forall l, Permutation l (order l)) -> (forall l, Permutation (sets l) l) ->
  ~ late_top_tunnel (rectangle w h) T (longest w h (main_length o)) ->
  exists net' ic' oc', parse_command w h T order sets true = Some net' /\ complete net' /\ List.length net' = List.length net /\
    get_input_output_colours net' = Some ((ic', n), (oc', m)) /\
    (balances net ic (Z.to_nat n) oc (Z.to_nat m) -> balances net' ic' (Z.to_nat n) oc' (Z.to_nat m)).
Proof.
  intros HE Hnn Cm Hl Ee Hm Sa R Ho Hs Nl.
  destruct (proj1 (C88_main_exactly E o net w h g cs top T ic n oc m HE Hnn Cm Hl Ee Hm)) as (VL & (P & wire & HR & _) & _); [eauto|].
  assert (Hwh : 0 < w /\ 0 < h). { destruct (main_split E o net w h g cs top Hm) as (_ & cs0 & top0 & ce & t1 & cb & t2 & cn & C & _). unfold create_balancer in C. destruct (Z.ltb_spec 0 w), (Z.ltb_spec 0 h); try discriminate; auto. }
  destruct Hwh as [Hw Hh]. pose proof Ee as Hends. apply ends_spec in Hends. destruct Hends as ((Hn & Hmm) & X1 & X2 & _).
  assert (Nio : ic <> oc) by (intros ->; lia).
  pose proof (dedup_complete net Cm) as Cd.
  destruct (C99_built w h T _ (elements (deduplicate_network net)) ic (Z.to_nat n) oc (Z.to_nat m) order sets true Hw Hh VL Cd) as (net' & ic' & oc' & Ep & Ct & Len & Ee' & R' & B).
  - exists P, wire. exact HR.
  - exact Nio.
  - lia.
  - lia.
  - exact Ho.
  - exact Hs.
  - exact Nl.
  - left. reflexivity.
  - rewrite !Z2Nat.id in Ee' by lia. exists net', ic', oc'. split; [exact Ep|]. split; [exact Ct|]. split; [|split; [exact Ee'|]].
    + rewrite Len, (Permutation_length (deduplicate_elements net)). apply map_length.
    + intros Bn. apply B. refine (realised_balanced (rectangle w h) T _ _ _ _ _ _ P wire (rectangle_wf w h Hw Hh) VL Cd _ HR).
      apply (balances_similar _ _ _ _ _ _ (deduplicate_similar net)). exact Bn.
Qed.

(** From network create over belt_balancer to network parse. *)
Corollary C99_benes E orders o size net w h g cs top a T order sets : honest E -> (forall s l, Permutation (orders s l) l) ->
  create_benes_network orders size = Some net ->
  o_length o = -1 \/ 1 <= o_length o -> main_clauses E o net w h = Some (g, cs, top) -> sat a cs = true -> reads g a T ->
  (forall l, Permutation l (order l)) -> (forall l, Permutation (sets l) l) ->
  ~ late_top_tunnel (rectangle w h) T (longest w h (main_length o)) ->
  exists net' ic' oc', parse_command w h T order sets true = Some net' /\ List.length net' = List.length net /\
    get_input_output_colours net' = Some ((ic', size), (oc', size)) /\ balances net' ic' (Z.to_nat size) oc' (Z.to_nat size).
Proof.
  intros HE Hor C Hl Hm Sa R Ho Hs Nl. destruct (Z_lt_le_dec size 2) as [H|H]; [rewrite (C27_small orders size H) in C; discriminate|].
  destruct (C27_terminates_with_ends orders size Hor H) as (net0 & oc & C' & He & Hc & _). rewrite C in C'. apply Some_inj in C'. subst net0.
  pose proof (proj2 (proj1 (C63_ends net) 0 size oc size) He) as Ee. destruct (C28_balances orders size net 0 size oc size Hor C Ee) as (_ & _ & Bal).
  assert (Cm : complete net).
  { intros nd Hin. assert (X : forall x, In x (slots net) -> x <> None) by (intros x Hx ->; apply Hc; exact Hx).
    repeat split; apply X; apply slots_in; exists nd; auto. }
  destruct (C99_program E o net w h g cs top a T 0 size oc size order sets HE ltac:(eapply benes_nonneg; exact C) Cm Hl Ee Hm Sa R Ho Hs Nl) as (net' & ic' & oc' & Ep & _ & Len & Ee' & B).
  exists net', ic', oc'. split; [exact Ep|]. split; [exact Len|]. split; [exact Ee'|apply B; exact Bal].
Qed.

(** ** A case *)
Example C99_demo : create_benes_network (fun _ l => l) 2 = Some demo_net /\
  (exists cs top, main_clauses naive_encoder demo_options demo_net 3 3 = Some (demo_bgrid, cs, top) /\ sat main_solution cs = true /\ reads demo_bgrid main_solution (row_balancer 0)) /\
  ~ late_top_tunnel (rectangle 3 3) (row_balancer 0) (longest 3 3 (main_length demo_options)) /\
  parse_command 3 3 (row_balancer 0) (fun l => l) (fun l => l) true = Some demo_net.
Proof.
  split; [vm_compute; reflexivity|]. split; [exact C88_demo|]. split; [|vm_compute; reflexivity]. apply clear_not_late. intros p d _ _ Tp. unfold row_balancer in Tp. destruct p as [x y].
  destruct ((0 <=? snd (x, y)) && (snd (x, y) <=? 0 + 1)); [|discriminate]. destruct x as [|[[]|[]|]|]; discriminate.
Qed.
Print Assumptions C99_built.
Print Assumptions C99_program.
Print Assumptions C99_benes.
Print Assumptions C99_demo.
