(** Model of network.py: simplify. *)
From Coq Require Import ZArith List Bool.
From Verif Require Import M_Json M_Dict M_Network.
Import ListNotations.
Open Scope Z_scope.

(** network.py 124-130: remap_colours with a dictionary whose values may be None. *)
Definition map_to (m : list (Z * colour)) (c : colour) : colour :=
  match c with
  | None => None
  | Some x => match dget Z.eqb x m with Some y => y | None => Some x end
  end.
Definition remap_to (net : network) (m : list (Z * colour)) : network := map (map_splitter (map_to m)) net.
(** A dictionary that maps colours to None: lines 174-178, 187-191, 238 and 248. *)
Definition erase (cs : list Z) (net : network) : network := remap_to net (map (fun c => (c, None)) cs).

Definition is_none (c : colour) : bool := match c with None => true | Some _ => false end.
Definition all_none (s : side) : bool := is_none (fst s) && is_none (snd s).
Definition any_none (s : side) : bool := is_none (fst s) || is_none (snd s).

(** list.remove: the first equal element goes. *)
Fixpoint remove_first (nd : splitter) (net : network) : network :=
  match net with [] => [] | n :: r => if splitter_eqb n nd then r else n :: remove_first nd r end.
(** network[network.index(nd)] = by_ *)
Fixpoint replace_first (nd by_ : splitter) (net : network) : network :=
  match net with [] => [] | n :: r => if splitter_eqb n nd then by_ :: r else n :: replace_first nd by_ r end.

(** Lines 200-208: the belt of a side that is there. *)
Definition lone (s : side) : colour := match fst s with Some x => Some x | None => snd s end.

(** network.py 167-212: the first node that is met with no input, no output, or
    one of each. *)
Definition spare (nd : splitter) : bool := all_none (fst nd) || all_none (snd nd) || any_none (fst nd) && any_none (snd nd).
Definition drop_node (net : network) (nd : splitter) : network :=
  if all_none (fst nd) then erase (present (side_list (snd nd))) (remove_first nd net)
  else if all_none (snd nd) then erase (present (side_list (fst nd))) (remove_first nd net)
  else match lone (fst nd), lone (snd nd) with
       | Some i, o => remap_to (remove_first nd net) [(i, o)]
       | None, _ => net (* excluded by the tests above *)
       end.
Definition drop_step (net : network) : option network := option_map (drop_node net) (find spare net).

(** The set of colours of a side without None (228). *)
Definition side_set (s : side) : list Z := set_of (present (side_list s)).
Definition set_eqb (a b : list Z) : bool := forallb (fun x => mem x b) a && forallb (fun x => mem x a) b.

(** network.py 214-220: the index of the last splitter with an output / input of
    the colour; the entry of the colour None is never looked up. *)
Fixpoint last_index (sel : splitter -> side) (c : Z) (i : Z) (net : network) (found : Z) : Z :=
  match net with
  | [] => found
  | nd :: r => last_index sel c (i + 1) r (if mem c (present (side_list (sel nd))) then i else found)
  end.
Definition source_of (net : network) (c : Z) : Z := last_index snd c 0 net (-1).
Definition drain_of (net : network) (c : Z) : Z := last_index fst c 0 net (-1).

(** What a pair of nodes leads to: the loop goes on, the assertion fails, or the
    network changes. *)
Inductive pair_result := Skip | Fails | Becomes (net : network).

Section Simplify.
  (** [order] is the order in which a set is gone through when its two elements
      become the belts of a side (238 and 248, after remap_colours). *)
  Variable order : list Z -> list Z.
  Definition to_side (l : list Z) : side :=
    match order l with [a; b] => (Some a, Some b) | _ => (None, None) end. (* only called with two elements *)
  Definition only (l : list Z) : colour := match l with [a] => Some a | _ => None end.

  (** network.py 223-249: one pair of nodes. *)
  Definition try_pair (allow_bottleneck : bool) (net : network) (node_a node_b : splitter) : pair_result :=
    if splitter_eqb node_a node_b then Skip else
    let input_a := side_set (fst node_a) in
    let output_a := side_set (snd node_a) in
    let input_b := side_set (fst node_b) in
    let output_b := side_set (snd node_b) in
    if set_eqb output_a input_b then
      if (length output_a =? 1)%nat || (length input_b =? 1)%nat then Fails (* 229 *)
      else Becomes (replace_first node_b (fst node_a, snd node_b) (remove_first node_a net))
    else
    if allow_bottleneck && ((length output_a =? 1)%nat && (length output_b =? 1)%nat && (length input_a =? 2)%nat && (length input_b =? 2)%nat)
       && (let sa := map (source_of net) input_a in negb (mem (-1) sa) && set_eqb sa (map (source_of net) input_b)) then
      Becomes (erase input_b (replace_first node_b (to_side input_a, (only output_a, only output_b)) (remove_first node_a net)))
    else
    if allow_bottleneck && ((length input_a =? 1)%nat && (length input_b =? 1)%nat && (length output_a =? 2)%nat && (length output_b =? 2)%nat)
       && (let da := map (drain_of net) output_a in negb (mem (-1) da) && set_eqb da (map (drain_of net) output_b)) then
      Becomes (erase output_b (replace_first node_b ((only input_a, only input_b), to_side output_a) (remove_first node_a net)))
    else Skip.

  Fixpoint scan_pairs (allow_bottleneck : bool) (net : network) (pairs : list (splitter * splitter)) : pair_result :=
    match pairs with
    | [] => Skip
    | (a, b) :: r => match try_pair allow_bottleneck net a b with Skip => scan_pairs allow_bottleneck net r | other => other end
    end.

  Inductive outcome := Returns (net : network) | Raises | Continues.
  (** network.py 165-261: simplify. [fuel] bounds the rounds of the outer loop;
      running out of it is [Continues]. *)
  Fixpoint simplify_rounds (fuel : nat) (allow_bottleneck : bool) (net : network) : outcome :=
    match fuel with
    | O => Continues
    | S f =>
        match drop_step net with
        | Some net' => simplify_rounds f allow_bottleneck net'
        | None =>
            match scan_pairs allow_bottleneck net (list_prod net net) with
            | Skip => Returns net
            | Fails => Raises
            | Becomes net' => simplify_rounds f allow_bottleneck net'
            end
        end
    end.
  Definition simplify (allow_bottleneck : bool) (net : network) : outcome :=
    simplify_rounds (S (length net)) allow_bottleneck net.
End Simplify.
