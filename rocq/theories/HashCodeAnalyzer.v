(** Model of frozen-collections-core/src/analyzers/hash_code_analyzer.rs. *)
From Coq Require Import List ZArith Bool Lia Factorial.
From Verif Require Import Base.
Import ListNotations.
Open Scope Z_scope.

(** hash_code_analyzer.rs:34-41 *)
Definition PRIMES : list Z :=
  [131; 163; 197; 239; 293; 353; 431; 521; 631; 761; 919; 1103; 1327; 1597; 1931; 2333; 2801;
   3371; 4049; 4861; 5839; 7013; 8419; 10103; 12143; 14591; 17519; 21023; 25229; 30293;
   36353; 43627; 52361; 62851; 75431; 90523; 108631; 130363; 156437; 187751;
   225307; 270371; 324449; 389357; 467237; 560689; 672827; 807403; 968897; 1162687;
   1395263; 1674319; 2009191; 2411033; 2893249; 3471899; 4166287; 4999559;
   5999471; 7199369].

(** hash_code_analyzer.rs:156-162: the trial division loop of [is_prime].
    [fuel] bounds the number of iterations; running out is reported. *)
Fixpoint trial_division (fuel : nat) (candidate limit divisor : Z) : res bool :=
  match fuel with
  | O => OutOfFuel
  | S fuel' =>
      if divisor <=? limit then
        if candidate mod divisor =? 0 then Ok false
        else trial_division fuel' candidate limit (divisor + 2)
      else Ok true
  end.

(** hash_code_analyzer.rs:149-165. The fuel is one more than the number of
    candidate divisors up to [limit]. *)
Definition is_prime (candidate : Z) : res bool :=
  if (candidate mod 3 =? 0) || (candidate mod 5 =? 0) then Ok false
  else
    let limit := f64_sqrt candidate in
    trial_division (S (Z.to_nat limit)) candidate limit 3.

(** hash_code_analyzer.rs:91-93: [while !is_prime(size) { size += 2 }].
    usize overflow of [size] is not modelled. *)
Fixpoint next_prime (fuel : nat) (size : Z) : res Z :=
  match fuel with
  | O => OutOfFuel
  | S fuel' =>
      b <- is_prime size ;;
      if b : bool then Ok size else next_prime fuel' (size + 2)
  end.

(** Fuel for [next_prime]: Euclid's bound on the distance to the next prime. *)
Definition prime_fuel (size : Z) : nat := S (fact (Z.to_nat size)).

(** hash_code_analyzer.rs:84-94: candidate sizes for very large inputs.
    [size |= 1] makes the size odd. *)
Fixpoint large_sizes (fuel : nat) (size increment max_size : Z) : res (list Z) :=
  match fuel with
  | O => OutOfFuel
  | S fuel' =>
      if size <=? max_size then
        let size1 := Z.lor (size + increment) 1 in
        size2 <- next_prime (prime_fuel size1) size1 ;;
        rest <- large_sizes fuel' size2 increment max_size ;;
        Ok (size :: rest)
      else Ok []
  end.

(** [a..=b] *)
Definition zrange_incl (a b : Z) : list Z :=
  map (fun i => a + Z.of_nat i) (seq 0 (Z.to_nat (b - a + 1))).

(** hash_code_analyzer.rs:44-49 *)
Definition initial_acceptable (n : Z) : Z := if n <? 128 then 0 else (n / 100) * 5.

(** hash_code_analyzer.rs:55-61 *)
Definition max_table_size (n : Z) : Z :=
  if n <? 128 then n * 16 else if n <? 1000 then n * 10 else n * 3.

(** hash_code_analyzer.rs:69-95: the list of sizes to try, in order. *)
Definition candidate_sizes (n min_size max_size : Z) : res (list Z) :=
  rest <- (if max_size <? 128 then Ok (zrange_incl min_size max_size)
           else if min_size <? last PRIMES 0 then Ok PRIMES
           else large_sizes (S (Z.to_nat max_size)) min_size (n / 3) max_size) ;;
  Ok (n :: rest).

(** hash_code_analyzer.rs:105-117: count collisions for one table size, stopping once
    [best] is reached. The bit vector [use_table] of [max_size] bits is represented by
    the list of slots whose bit is set; reads and writes are bounds-checked. *)
Fixpoint count_collisions (size max_size best : Z) (codes used : list Z) (num : Z) : res Z :=
  match codes with
  | [] => Ok num
  | code :: codes' =>
      if size =? 0 then Panic PDivByZero
      else
        let slot := code mod size in
        if slot <? max_size then
          if existsb (Z.eqb slot) used then
            if best <=? num + 1 then Ok (num + 1)
            else count_collisions size max_size best codes' used (num + 1)
          else count_collisions size max_size best codes' (slot :: used) num
        else Panic PIndexOutOfBounds
  end.

(** hash_code_analyzer.rs:97-138: the loop over candidate sizes with its state
    (acceptable collisions, best size, best number of collisions). *)
Fixpoint try_sizes (codes : list Z) (min_size max_size : Z) (sizes : list Z)
    (acceptable best_size best_num : Z) : res (Z * Z) :=
  match sizes with
  | [] => Ok (best_size, best_num)
  | size :: sizes' =>
      if size <? min_size then
        try_sizes codes min_size max_size sizes' acceptable best_size best_num
      else if max_size <? size then Ok (best_size, best_num)
      else
        num <- count_collisions size max_size best_num codes [] 0 ;;
        let improves := num <? best_num in
        let take := improves && ((best_size =? 0) || (num <=? acceptable)) in
        let best_size' := if take then size else best_size in
        let best_num' := if take then num else best_num in
        if improves && (num <=? acceptable) then Ok (best_size', best_num')
        else
          let acceptable' :=
            if 0 <? acceptable then (acceptable / 100) * 20 else acceptable in
          try_sizes codes min_size max_size sizes' acceptable' best_size' best_num'
  end.

(** hash_code_analyzer.rs:14-144. Returns (num_hash_slots, num_hash_collisions). *)
Definition analyze_hash_codes (codes : list Z) : res (Z * Z) :=
  let n := zlen codes in
  let acceptable := initial_acceptable n in
  let min_size := n - acceptable in
  let max_size := max_table_size n in
  sizes <- candidate_sizes n min_size max_size ;;
  try_sizes codes min_size max_size sizes acceptable 0 n.
