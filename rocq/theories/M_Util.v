(** Model of factorio_sat/util.py (clause generators).
    Python exceptions and failed assertions are [None].
    The SAT variables returned by an allocator are passed as a list, in the
    order in which the Python function calls [allocator()]; [*_st] variants
    thread a counter allocator ([make_allocator], [IDPool._next]). *)
From Coq Require Import ZArith List Bool.
From Verif Require Import Spec_Cnf.
Import ListNotations.
Open Scope Z_scope.

(** util.py 347-354 [make_allocator], and pysat's counter as template.py 139, 185, 367 use it
    [pool._next()]: the next [k] variables of a counter whose last value was
    [top]. *)
Fixpoint fresh (top : Z) (k : nat) : list lit :=
  match k with
  | O => []
  | S k' => (top + 1) :: fresh (top + 1) k'
  end.

(** util.py:175-179 *)
Definition set_literal (l : lit) (v : bool) : lit := if v then l else - l.

(** util.py:182-183 *)
Definition set_all_false (ls : list lit) : cnf := map (fun l => [- l]) ls.

(** util.py:186-187 *)
Definition set_all_true (ls : list lit) : cnf := map (fun l => [l]) ls.

(** util.py:315-318 ([value & (1 << bit)] on Python's unbounded integers is
    the infinite two's complement test, i.e. [Z.testbit]). *)
Definition get_bits (v : Z) (total_bits : nat) : list bool :=
  map (fun i => Z.testbit v (Z.of_nat i)) (seq 0 total_bits).

(** util.py:321-324 *)
Definition implies (condition : list lit) (consequences : cnf) : cnf :=
  map (fun c => map Z.opp condition ++ c) consequences.

(** util.py:327-328 *)
Definition literals_different (a b : lit) : cnf := [[a; b]; [- a; - b]].

(** util.py:331-332 *)
Definition literals_same (a b : lit) : cnf := [[- a; b]; [a; - b]].

(** util.py:335-337 *)
Definition invert_components (c : clause) : clause := map Z.opp c.

(** util.py:340-344 *)
Definition product (vs : list Z) : Z := fold_left Z.mul vs 1.

(** util.py:311-312 *)
Definition is_power_of_two (v : Z) : bool := Z.land v (v - 1) =? 0.

(** util.py:171-172.  [math.ceil(math.log2(value))]: modelled by the exact
    integer function (floating point rounding is not modelled); raises for
    [value <= 0]. *)
Definition bin_length (v : Z) : option Z :=
  if 0 <? v then Some (Z.log2_up v) else None.

(** util.py:157-168.  [result |= 1 << i] for the set bits. *)
Definition read_number_from (i : Z) (acc : Z) (bits : list bool) : Z :=
  snd (fold_left (fun '(i, acc) (b : bool) =>
                    (i + 1, if b then Z.lor acc (Z.shiftl 1 i) else acc))
                 bits (i, acc)).
Definition read_number (bits : list bool) : Z := read_number_from 0 0 bits.
Definition read_number_signed (bits : list bool) : option Z :=
  if Nat.ltb 1 (length bits)
  then Some (if last bits false
             then read_number bits - Z.shiftl 1 (len bits)
             else read_number bits)
  else None.

(** util.py:58-91, one iteration of the loop of [add_numbers]. *)
Definition add_bit (in_a in_b out : lit) (carry_in : option lit) (carry_out : lit) : cnf :=
  match carry_in with
  | None =>
      [ [- in_a; - in_b; carry_out];
        [in_a; - carry_out];
        [in_b; - carry_out];
        [in_a; in_b; - out];
        [- in_a; in_b; out];
        [in_a; - in_b; out];
        [- in_a; - in_b; - out] ]
  | Some carry_in =>
      [ [- in_a; - in_b; carry_out];
        [- in_a; - carry_in; carry_out];
        [- in_b; - carry_in; carry_out];
        [in_a; in_b; - carry_out];
        [in_a; carry_in; - carry_out];
        [in_b; carry_in; - carry_out];
        [in_a; in_b; carry_in; - out];
        [- in_a; in_b; carry_in; out];
        [in_a; - in_b; carry_in; out];
        [- in_a; - in_b; carry_in; - out];
        [in_a; in_b; - carry_in; out];
        [- in_a; in_b; - carry_in; - out];
        [in_a; - in_b; - carry_in; - out];
        [- in_a; - in_b; - carry_in; out] ]
  end.

(** util.py:58-91: the loop; stops with the shortest list ([zip]); fails when
    the allocator is exhausted ([StopIteration] of a fixed allocator). *)
Fixpoint add_loop (input_a input_b output : list lit) (carry_in : option lit)
    (carries : list lit) : option (cnf * option lit) :=
  match input_a, input_b, output with
  | a :: as_, b :: bs, o :: os =>
      match carries with
      | [] => None
      | c :: cs =>
          match add_loop as_ bs os (Some c) cs with
          | None => None
          | Some (rest, last_carry) => Some (add_bit a b o carry_in c ++ rest, last_carry)
          end
      end
  | _, _, _ => Some ([], carry_in)
  end.

(** util.py:47-97.  [-None] raises [TypeError]. *)
Definition add_numbers (input_a input_b output : list lit) (carries : list lit)
    (carry_in : option lit) (allow_overflow : bool) : option cnf :=
  if negb (Nat.eqb (length input_a) (length input_b)) then None else
  if negb (Nat.eqb (length output) (length input_a)
           || Nat.eqb (length output) (S (length input_a))) then None else
  match add_loop input_a input_b output carry_in carries with
  | None => None
  | Some (clauses, carry) =>
      if Nat.ltb (length input_a) (length output) then
        match carry with
        | None => None
        | Some c => Some (clauses ++ literals_same c (last output 0))
        end
      else if negb allow_overflow then
        match carry with
        | None => None
        | Some c => Some (clauses ++ [[- c]])
        end
      else Some clauses
  end.

(** [add_numbers] with a counter allocator: one carry per input bit. *)
Definition add_numbers_st (input_a input_b output : list lit)
    (carry_in : option lit) (allow_overflow : bool) (top : Z) : option (cnf * Z) :=
  match add_numbers input_a input_b output (fresh top (length input_a)) carry_in allow_overflow with
  | None => None
  | Some cs => Some (cs, top + len input_a)
  end.

(** util.py:108-117: the loop of [sum_numbers]; [rest] is [numbers[1:]]. *)
Fixpoint sum_loop (size : nat) (number_in : list lit) (rest : list (list lit))
    (output : list lit) (allow_overflow : bool) (top : Z) : option (cnf * Z) :=
  match rest with
  | [] => Some ([], top)
  | number :: rest' =>
      let '(number_out, top1) :=
        match rest' with
        | [] => (output, top)
        | _ => (fresh top size, top + Z.of_nat size)
        end in
      match add_numbers_st number_in number number_out None allow_overflow top1 with
      | None => None
      | Some (cs, top2) =>
          match sum_loop size number_out rest' output allow_overflow top2 with
          | None => None
          | Some (cs', top3) => Some (cs ++ cs', top3)
          end
      end
  end.

(** util.py:100-119 *)
Definition sum_numbers (numbers : list (list lit)) (output : list lit)
    (allow_overflow : bool) (top : Z) : option (cnf * Z) :=
  match numbers with
  | first :: (_ :: _) as rest =>
      if forallb (fun n => Nat.eqb (length n) (length first)) numbers
         && Nat.eqb (length first) (length output)
      then sum_loop (length first) first (tl numbers) output allow_overflow top
      else None
  | _ => None
  end.

(** util.py:127-131; [prefix] is [input[:i]]. *)
Fixpoint increment_loop (prefix input output : list lit) : cnf :=
  match input, output with
  | i :: is_, o :: os =>
      implies prefix (literals_different i o)
      ++ flat_map (fun l => implies [- l] (literals_same i o)) prefix
      ++ increment_loop (prefix ++ [i]) is_ os
  | _, _ => []
  end.

(** util.py:122-132 *)
Definition increment_number (input output : list lit) : option cnf :=
  if Nat.eqb (length input) (length output) && Nat.ltb 0 (length input)
  then Some (increment_loop [] input output) else None.

(** util.py:135-154.  [fuel] bounds the recursion depth; running out of fuel is
    [None] and is excluded by the theorems. *)
Fixpoint popcount_fuel (fuel : nat) (bits output : list lit) (top : Z) : option (cnf * Z) :=
  match fuel with
  | O => None
  | S fuel' =>
      match bin_length (len bits + 1) with
      | None => None
      | Some w =>
          if negb (w =? len output) then None else
          if Nat.leb (length bits) 1 then None else
          if Nat.leb (length bits) 3 then
            let carry_in := if Nat.eqb (length bits) 3 then Some (nth 2 bits 0) else None in
            add_numbers_st [nth 0 bits 0] [nth 1 bits 0] output carry_in false top
          else
            let carry_in := if Nat.eqb (Nat.modulo (length bits) 2) 0 then None
                            else Some (last bits 0) in
            let sub_size := Nat.div (length bits) 2 in
            let w' := pred (length output) in
            let output_a := fresh top w' in
            let output_b := fresh (top + Z.of_nat w') w' in
            match popcount_fuel fuel' (firstn sub_size bits) output_a (top + 2 * Z.of_nat w') with
            | None => None
            | Some (ca, top1) =>
                match popcount_fuel fuel' (firstn sub_size (skipn sub_size bits)) output_b top1 with
                | None => None
                | Some (cb, top2) =>
                    match add_numbers_st output_a output_b output carry_in false top2 with
                    | None => None
                    | Some (cc, top3) => Some (ca ++ cb ++ cc, top3)
                    end
                end
            end
      end
  end.
Definition get_popcount (bits output : list lit) (top : Z) : option (cnf * Z) :=
  popcount_fuel (length bits) bits output top.

(** util.py:190-196 *)
Definition set_number (v : Z) (ls : list lit) : option cnf :=
  if v <? Z.shiftl 1 (len ls)
  then Some (map (fun '(l, b) => [set_literal l b]) (combine ls (get_bits v (length ls))))
  else None.

(** util.py:244-245 *)
Definition set_not_number (v : Z) (ls : list lit) : option clause :=
  match set_number v ls with
  | None => None
  | Some cs => Some (map (fun c => - nth 0 c 0) cs)
  end.

(** util.py:206-214: first loop of [set_numbers]. *)
Fixpoint set_numbers_loop (las lbs : list lit) (bas bbs : list bool)
    : cnf * list (lit * lit * bool) :=
  match las, lbs, bas, bbs with
  | la :: las', lb :: lbs', ba :: bas', bb :: bbs' =>
      let '(cs, ds) := set_numbers_loop las' lbs' bas' bbs' in
      if eqb ba bb
      then ([set_literal la ba] :: [set_literal lb ba] :: cs, ds)
      else (literals_different la lb ++ cs, (la, lb, ba) :: ds)
  | _, _, _, _ => ([], [])
  end.

(** util.py:199-227 *)
Definition set_numbers (va vb : Z) (las lbs : list lit) : option cnf :=
  if negb (Nat.eqb (length las) (length lbs)) then None else
  let total_bits := length las in
  if negb (va <? Z.shiftl 1 (Z.of_nat total_bits)) then None else
  if negb (vb <? Z.shiftl 1 (Z.of_nat total_bits)) then None else
  let '(cs, ds) := set_numbers_loop las lbs (get_bits va total_bits) (get_bits vb total_bits) in
  match ds with
  | [] => Some cs
  | (la0, _, ba0) :: ds' =>
      Some (cs ++ flat_map (fun '(la1, _, ba1) =>
                     if eqb ba0 ba1 then literals_same la0 la1
                     else literals_different la0 la1) ds')
  end.

(** util.py:230-241 *)
Definition set_numbers_equal (as_ bs : list lit) (allow_different_lengths : bool) : option cnf :=
  if allow_different_lengths then
    Some (set_all_false (skipn (length bs) as_)
          ++ set_all_false (skipn (length as_) bs)
          ++ flat_map (fun '(a, b) => literals_same a b) (combine as_ bs))
  else if Nat.eqb (length as_) (length bs) then
    Some (flat_map (fun '(a, b) => literals_same a b) (combine as_ bs))
  else None.

(** util.py:248-261 *)
Fixpoint set_maximum (v : Z) (ls : list lit) : option cnf :=
  match ls with
  | [] => if v =? 0 then Some [] else None
  | l :: tail =>
      match set_maximum (Z.shiftr v 1) tail with
      | None => None
      | Some cs =>
          if Z.land v 1 =? 0 then
            Some (cs ++ [ - l :: map (fun '(_, x) => - x)
                              (filter (fun '(b, _) => b)
                                 (combine (get_bits (Z.shiftr v 1) (length tail)) tail)) ])
          else Some cs
      end
  end.

(** util.py:276-304: one iteration of [invert_number]. *)
Definition invert_bit (a b : lit) (carry_in carry_out : option lit) : cnf :=
  match carry_in with
  | None =>
      literals_same a b ++
      match carry_out with
      | None => []
      | Some co => [ [- a; - b; co]; [a; - co]; [b; - co] ]
      end
  | Some ci =>
      [ [- a; - b; - ci]; [- a; b; ci]; [a; - b; ci]; [a; b; - ci] ] ++
      match carry_out with
      | None => []
      | Some co =>
          [ [- a; - b; co]; [- a; - ci; co]; [- b; - ci; co];
            [a; b; - co]; [a; ci; - co]; [b; ci; - co] ]
      end
  end.

(** util.py:269-304: the loop ([carry_out] is [None] for the last bit). *)
Fixpoint invert_loop (input output : list lit) (carry_in : option lit) (top : Z) : cnf * Z :=
  match input, output with
  | a :: as_, b :: bs =>
      match as_ with
      | [] => (invert_bit a b carry_in None, top)
      | _ => let '(cs, top') := invert_loop as_ bs (Some (top + 1)) (top + 1) in
             (invert_bit a b carry_in (Some (top + 1)) ++ cs, top')
      end
  | _, _ => ([], top)
  end.

(** util.py:264-308 ([input[-1]] raises on the empty list). *)
Definition invert_number (input output : list lit) (top : Z) : option (cnf * Z) :=
  if negb (Nat.eqb (length input) (length output)) then None else
  match input with
  | [] => None
  | _ => let '(cs, top') := invert_loop input output None top in
         Some (cs ++ [removelast input ++ [- last input 0]], top')
  end.

(** util.py:367-382: one iteration of [break_symmetry]. *)
Definition break_bit (l r diff : lit) (prev : option lit) : cnf :=
  match prev with
  | None => [ [l; - r; diff]; [- l; - r; - diff]; [l; r; - diff]; [- l; r] ]
  | Some p =>
      [ [- p; diff]; [l; - r; diff]; [p; - l; - r; - diff]; [p; l; r; - diff]; [p; - l; r] ]
  end.
Fixpoint break_loop (left right diffs : list lit) (prev : option lit) : cnf :=
  match left, right, diffs with
  | l :: ls, r :: rs, d :: ds => break_bit l r d prev ++ break_loop ls rs ds (Some d)
  | _, _, _ => []
  end.

(** util.py:362-383 *)
Definition break_symmetry (left right : list lit) (top : Z) : option (cnf * Z) :=
  if Nat.eqb (length left) (length right)
  then Some (break_loop left right (fresh top (length left)) None, top + len left)
  else None.
