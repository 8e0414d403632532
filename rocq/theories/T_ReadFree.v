(** Property theorems C109: what belt_balancer_net_free.py and
    belt_balancer_net_free_power_of_2.py print, network.py reads. *)
From Coq Require Import String ZArith QArith List Bool Lia Permutation.
From Verif Require Import P_Network P_Network2 P_Benes P_Nonneg P_Similar P_Wiring T_Network.
From Verif Require Import Spec_Cnf Spec_Tile Spec_Layout Spec_Pattern Spec_Main M_Json M_Tile M_Util M_Card M_Dict M_Network Spec_Network M_Template M_Grid M_Oracle M_Balancer M_Optimise M_NetFree M_Pow2 M_Solve M_Main M_Partial
  Spec_Balancer Spec_Flow Spec_Interchange Spec_Pow2 Spec_Free Spec_Parse M_Parse P_Pow2Flow P_Cnf P_Util P_Tile P_Layout P_List P_Template P_Walk P_Grid P_GridSound P_Trace P_Uniq P_Flow T_Grid T_Enumerate T_Lossless P_NetFree P_Pow2Frame P_Pow2Exact P_FreeExact
  P_Parse4 P_Parse5 P_Parse7 P_ReadFree T_Parse T_NetDemo T_Pow2 T_Pow2Main T_Free.
Import ListNotations.
Open Scope Z_scope.

(** What belt_balancer_net_free.py prints for as many outputs as inputs, and more
    than one, is read unless the line of a tunnel in the top row is found behind it
    (Spec_Parse).  The network printed misses no belt, has [n] inputs and [n]
    outputs, is what the layout is built like and balances. *)
Theorem C109_free w h l n al partial g cs top a T order sets edge : 2 <= n ->
  net_free_main w h l n n al partial = Some (g, cs, top) -> sat a cs = true -> reads g a T ->
  (forall l, Permutation l (order l)) -> (forall l, Permutation (sets l) l) ->
  let L := longest w h (length_option l) in
  (parse_command w h T order sets edge <> None <-> ~ late_top_tunnel (rectangle w h) T L) /\
  forall net, parse_command w h T order sets edge = Some net -> complete net /\
    exists ic oc, get_input_output_colours net = Some ((ic, n), (oc, n)) /\
      realises (rectangle w h) T L net ic (Z.to_nat n) oc (Z.to_nat n) /\ balances net ic (Z.to_nat n) oc (Z.to_nat n).
Proof.
  intros Hn Hm Sa R Ho Hs L. destruct (free_split w h l n al partial g cs top Hm) as (Hw & Hh & _ & Hl & _).
  destruct (proj1 (C94_exactly w h l n al partial g cs top T Hm)) as ((i & j & Op & _ & F & Me) & _); [eauto|]. fold L in Op, Me.
  assert (Len : forall x k, List.length (rows x k n) = Z.to_nat n) by (intros; unfold rows; rewrite map_length, seq_length; reflexivity).
  assert (Ne : forall x k, rows x k n <> []) by (intros x k E; apply (f_equal (@List.length _)) in E; rewrite Len in E; cbn in E; lia).
  destruct (con_read w h T L Hw Hh (op_valid _ _ _ _ _ _ _ Op) (op_connected _ _ _ _ _ _ _ Op) order sets edge (rows 0 i n) (rows (w - 1) j n) Ho Hs (op_inlets _ _ _ _ _ _ _ Op) (op_outlets _ _ _ _ _ _ _ Op) (Ne _ _) (Ne _ _) (open_through w h L n T i j F Hn Op Me)) as [Rd Net].
  split; [exact Rd|]. intros net E. destruct (Net net E) as (Cm & _ & ic & oc & Ee & Re & B). split; [exact Cm|]. exists ic, oc. rewrite !Len in *. rewrite !Z2Nat.id in Ee by lia.
  split; [exact Ee|]. split; [exact Re|]. apply B.
  assert (Hul : match length_option l with Some l => 0 <= l | None => True end) by (unfold length_option; destruct (Z.eqb_spec l (-1)); [exact Logic.I|lia]).
  pose proof (nn_balanced _ _ _ _ _ _ _ Hul (free_known w h l n al partial g cs top a Hm Sa) T R) as Ba.
  destruct (free_split w h l n al partial g cs top Hm) as (_ & _ & _ & _ & Eg & _). rewrite Eg in Ba. exact Ba.
Qed.

(** What belt_balancer_net_free_power_of_2.py prints is read likewise between its
    two columns of splitters (Spec_Pow2).  The network has [h] inputs and outputs,
    and [log2 h] times [h / 2] splitters: enough for each input to meet all the
    others, and no more. *)
Theorem C109_power_of_two E w h l partial g cs top a T order sets edge : honest E ->
  pow2_main E w h l partial = Some (g, cs, top) -> sat a cs = true -> reads g a T ->
  (forall l, Permutation l (order l)) -> (forall l, Permutation (sets l) l) ->
  let L := longest w h (length_option l) in
  (parse_command (w + 4) h (framed w T) order sets edge <> None <-> ~ late_top_tunnel (rectangle (w + 4) h) (framed w T) L) /\
  forall net, parse_command (w + 4) h (framed w T) order sets edge = Some net -> complete net /\
    Z.of_nat (List.length net) = Z.log2 h * (h / 2) /\
    exists ic oc, get_input_output_colours net = Some ((ic, h), (oc, h)) /\
      realises (rectangle (w + 4) h) (framed w T) L net ic (Z.to_nat h) oc (Z.to_nat h) /\ balances net ic (Z.to_nat h) oc (Z.to_nat h).
Proof.
  intros HE Hm Sa R Ho Hs L. destruct (pow2_split E w h l partial g cs top Hm) as (Hw & Hj & Hl & _).
  destruct (proj1 (C91_exactly E w h l partial g cs top T HE Hm)) as (Inn & (S & Gr) & _); [eauto|]. fold L in Inn, Gr.
  pose proof (fh w h L T S Hj Inn Gr) as Hh.
  assert (Len : forall x, List.length (rows x 0 h) = Z.to_nat h) by (intros; unfold rows; rewrite map_length, seq_length; reflexivity).
  assert (Ne : forall x, rows x 0 h <> []) by (intros x E'; apply (f_equal (@List.length _)) in E'; rewrite Len in E'; cbn in E'; lia).
  destruct (con_read (w + 4) h (framed w T) L ltac:(lia) Hh (framed_ok w h L T S Hw Hj Inn Gr) (framed_connected w h L T Hw Inn) order sets edge (rows 0 0 h) (rows (w + 3) 0 h) Ho Hs (framed_inlets w h L T Hw Inn) (framed_outlets w h L T Hw Inn) (Ne _) (Ne _) (framed_through w h L T Hw Inn)) as [Rd Net].
  split; [exact Rd|]. intros net Ep. destruct (Net net Ep) as (Cm & (ss & SS & Ls) & ic & oc & Ee & Re & B). split; [exact Cm|]. rewrite !Len in *. rewrite !Z2Nat.id in Ee by lia.
  destruct (pow2_known_facts E w h l partial g cs top a HE Hm Sa) as [-> PF].
  assert (H4 : 4 <= h).
  { apply (p2_size w h _ a PF T R). }
  split; [|exists ic, oc; split; [exact Ee|]; split; [exact Re|]; apply B; exact (fr_balanced w h _ a PF T R)].
  rewrite Ls, (framed_count w h L T S Hw Hj Inn Gr ss SS). f_equal. apply Z.max_r. apply (Z.log2_le_mono 4). exact H4.
Qed.

(** ** Cases *)
(** The 4 to 4 balancers of C91 and C94. *)
Definition four_read : network := [(Some 0, Some 0, (Some 2, Some 2)); (Some 0, Some 0, (Some 1, Some 1)); (Some 1, Some 2, (Some 3, Some 3)); (Some 1, Some 2, (Some 3, Some 3))].
Lemma top_by_checking w h T : forallb (fun x => negb (match T (Z.of_nat x, 0) with Underground _ true => true | _ => false end)) (seq 0 (Z.to_nat w)) = true -> top_row_clear (rectangle w h) T.
Proof.
  intros H [x y] d [Hx _] Hy Tp. change (0 <= x < w) in Hx. cbn [snd] in Hy. subst y. rewrite forallb_forall in H. specialize (H (Z.to_nat x) ltac:(apply in_seq; lia)).
  rewrite Z2Nat.id in H by lia. rewrite Tp in H. discriminate.
Qed.
Example C109_four_free : ~ late_top_tunnel (rectangle 10 4) open_four 4 /\ parse_command 10 4 open_four (fun l => l) (fun l => l) false = Some four_read /\
  complete four_read /\ balances four_read 0 4 3 4.
Proof.
  destruct C94_four as (cs & top & Hm & Sa).
  destruct (C109_free 10 4 4 4 true None open_four_grid cs top open_four_solution open_four (fun l => l) (fun l => l) false ltac:(lia) Hm Sa C94_four_reads (fun l => Permutation_refl l) (fun l => Permutation_refl l)) as [_ Net].
  assert (Ep : parse_command 10 4 open_four (fun l => l) (fun l => l) false = Some four_read) by (vm_compute; reflexivity).
  destruct (Net four_read Ep) as (Cm & ic & oc & Ee & _ & B). split; [|split; [exact Ep|split; [exact Cm|]]].
  - apply clear_not_late. apply top_by_checking. vm_compute. reflexivity.
  - assert (X : get_input_output_colours four_read = Some ((0, 4), (3, 4))) by (vm_compute; reflexivity). rewrite X in Ee. injection Ee as <- <-. exact B.
Qed.
Example C109_four_power : ~ late_top_tunnel (rectangle 12 4) (framed 8 four) 4 /\ parse_command 12 4 (framed 8 four) (fun l => l) (fun l => l) true = Some four_read.
Proof. split; [|vm_compute; reflexivity]. apply clear_not_late. apply top_by_checking. vm_compute. reflexivity. Qed.
(** For one input and output the layout may be a belt, of which no network is
    left. *)
Example C109_one : parse_command 3 1 (fun _ => Belt RIGHT RIGHT) (fun l => l) (fun l => l) true = Some [] /\ get_input_output_colours [] = None.
Proof. vm_compute. split; reflexivity. Qed.
Print Assumptions C109_free.
Print Assumptions C109_power_of_two.
Print Assumptions C109_four_free.
Print Assumptions C109_four_power.
