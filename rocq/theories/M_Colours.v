(** Model of network.py: the numbers of ends of a network, the cost of its
    colours and optimise_colours. *)
From Coq Require Import ZArith List Bool.
From Verif Require Import Spec_Cnf M_Json M_Dict M_Util M_Solve M_Network.
Import ListNotations.
Open Scope Z_scope.

(** network.py 318-329: calculate_network_size. *)
Definition calculate_network_size (net : network) : Z * Z :=
  (len (set_minus (input_set net) (output_set net)), len (set_minus (output_set net) (input_set net))).

(** network.py 380-386: pop_count; the loop takes the binary digits of a
    positive number from the last one on, the assertion refuses others. *)
Fixpoint pop_bits (p : positive) : Z :=
  match p with
  | xH => 1
  | xO q => pop_bits q
  | xI q => 1 + pop_bits q
  end.
Definition pop_count (v : Z) : option Z := match v with Zpos p => Some (pop_bits p) | _ => None end.

(** The sides of the splitters in the order of lines 402-403 and 452-453. *)
Definition sides (net : network) : list side := flat_map (fun n => [fst n; snd n]) net.
(** network.py 401-405. *)
Fixpoint add_costs (middle : list Z) (ss : list side) (cost : Z) : option Z :=
  match ss with
  | [] => Some cost
  | (Some a, Some b) :: r =>
      if mem a middle || mem b middle then let* k := pop_count (Z.lxor a b) in add_costs middle r (cost + k)
      else add_costs middle r cost
  | _ :: r => add_costs middle r cost
  end.
(** network.py 389-406: calculate_cost. *)
Definition calculate_cost (net : network) : option Z :=
  add_costs (set_inter (input_set net) (output_set net)) (sides net) 0.

(** range(a, b) *)
Definition between (a b : Z) : list Z := map (fun i => a + Z.of_nat i) (seq 0 (Z.to_nat (b - a))).

(** network.py 433: one label of [length] variables for each colour; allocate
    counts from 1 on (427-432). *)
Fixpoint make_labels (length : nat) (colours : list Z) (top : Z) : list (Z * list lit) * Z :=
  match colours with
  | [] => ([], top)
  | c :: r => let '(ls, top') := make_labels length r (top + Z.of_nat length) in ((c, fresh top length) :: ls, top')
  end.

(** network.py 435-437: the numbers that are not used. *)
Definition unused_numbers (n length : Z) (labels : list (Z * list lit)) : option cnf :=
  omap (fun cl => set_not_number (fst cl) (snd cl))
       (flat_map (fun c => map (fun l => (c, snd l)) labels) (between n (Z.shiftl 1 length))).

(** network.py 440-443: the pairs of colours. *)
Definition label_pairs (labels : list (Z * list lit)) : list ((Z * list lit) * (Z * list lit)) :=
  flat_map (fun a => map (fun b => (a, b)) (filter (fun b => fst a <? fst b) labels)) labels.
(** network.py 446-447: one digit of a difference. *)
Definition difference_bit (in_a in_b out : lit) : cnf :=
  [[in_a; in_b; - out]; [- in_a; - in_b; - out]; [in_a; - in_b; out]; [- in_a; in_b; out]].
(** network.py 445-449. *)
Fixpoint make_differences (length : nat) (pairs : list ((Z * list lit) * (Z * list lit))) (top : Z) : list ((Z * Z) * list lit) * cnf * Z :=
  match pairs with
  | [] => ([], [], top)
  | (a, b) :: r =>
      let difference := fresh top length in
      let clauses := (flat_map (fun x : lit * lit * lit => difference_bit (fst (fst x)) (snd (fst x)) (snd x))
                               (combine (combine (snd a) (snd b)) difference) ++ [difference])%list in
      let '(ds, cs, top') := make_differences length r (top + Z.of_nat length) in
      (((fst a, fst b), difference) :: ds, (clauses ++ cs)%list, top')
  end.

Definition pair_eqb (p q : Z * Z) : bool := (fst p =? fst q) && (snd p =? snd q).
(** network.py 451-465: the digits that are counted; a pair of equal colours is
    no key of [differences]. *)
Fixpoint counted_bits (edge : list Z) (differences : list ((Z * Z) * list lit)) (ss : list side) : option (list lit) :=
  match ss with
  | [] => Some []
  | (Some a, Some b) :: r =>
      if mem a edge && mem b edge then counted_bits edge differences r else
      let* d := dget pair_eqb (if b <? a then (b, a) else (a, b)) differences in
      let* rest := counted_bits edge differences r in Some (d ++ rest)%list
  | _ :: r => counted_bits edge differences r
  end.

Section Optimise.
  (** As in M_Solve: the answer to the clauses added so far. *)
  Variable solver : cnf -> option (list lit).

  (** network.py 475-483: the loop; the result is [model] and the last value of
      [cost]. *)
  Fixpoint improve (cs : cnf) (result : list lit) (costs : list Z) (last : Z) (model : option (list lit)) : option (option (list lit) * Z) :=
    match costs with
    | [] => Some (model, last)
    | cost :: rest =>
        match solver cs with
        | None => Some (model, cost)
        | Some m => let* c := set_not_number cost result in improve (cs ++ [c])%list result rest cost (Some m)
        end
    end.

  (** network.py 490-492: values. *)
  Definition model_values (m : list lit) : list (Z * bool) := fold_left (fun d l => dset Z.eqb (Z.abs l) (0 <? l) d) m [].
  (** network.py 493-496: colour_map. *)
  Definition colour_map (values : list (Z * bool)) (labels : list (Z * list lit)) : option (list (Z * Z)) :=
    omap (fun cl => let* bits := omap (fun l => dget Z.eqb l values) (snd cl) in Some (fst cl, read_number bits)) labels.

  (** network.py 409-501: optimise_colours; [order] is the order in which the
      set of colours is gone through. *)
  Variable order : list Z -> list Z.
  Definition optimise_colours (net : network) : option network :=
    let* starting_cost := calculate_cost net in
    let ins := input_set net in
    let outs := output_set net in
    let edge := (set_minus ins outs ++ set_minus outs ins)%list in (* 420 *)
    let all := set_union ins outs in
    let* length := bin_length (len all) in
    let '(labels, top1) := make_labels (Z.to_nat length) (order all) 0 in
    let* c1 := unused_numbers (len all) length labels in
    let '(differences, c2, top2) := make_differences (Z.to_nat length) (label_pairs labels) top1 in
    let* counted := counted_bits edge differences (sides net) in
    let* result_bits := bin_length (len counted + 1) in
    let result := fresh top2 (Z.to_nat result_bits) in
    let* (c3, _) := get_popcount counted result (top2 + result_bits) in
    let* c4 := omap (fun cost => set_not_number cost result) (between starting_cost (Z.shiftl 1 result_bits)) in
    let* (model, cost) := improve (c1 ++ c2 ++ c3 ++ c4)%list result (rev (between 1 starting_cost)) 0 None in
    match model with
    | None => Some net
    | Some m =>
        let* cm := colour_map (model_values m) labels in
        let net' := remap_colours net cm in
        let* cost' := calculate_cost net' in
        if cost + 1 =? cost' then Some net' else None (* 499 *)
    end.
End Optimise.
