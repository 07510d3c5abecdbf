(** The hash code analysis again, with every [usize] computation subject to overflow.
    HashCodeAnalyzer.v computes with unbounded integers; TableSizeProofs.v shows that both
    agree for every number of codes that fits in memory. *)
From Coq Require Import List ZArith Bool.
From Verif Require Import Base HashCodeAnalyzer.
Import ListNotations.
Open Scope Z_scope.

(** hash_code_analyzer.rs:91-93 *)
Fixpoint next_prime_w (pr : profile) (fuel : nat) (size : Z) : res Z :=
  match fuel with
  | O => OutOfFuel
  | S fuel' =>
      b <- is_prime size ;;
      if b : bool then Ok size
      else size' <- arith pr usize (size + 2) ;; next_prime_w pr fuel' size'
  end.

(** hash_code_analyzer.rs:84-94 *)
Fixpoint large_sizes_w (pr : profile) (fuel : nat) (size increment max_size : Z) : res (list Z) :=
  match fuel with
  | O => OutOfFuel
  | S fuel' =>
      if size <=? max_size then
        size1 <- arith pr usize (size + increment) ;;
        size2 <- next_prime_w pr (prime_fuel (Z.lor size1 1)) (Z.lor size1 1) ;;
        rest <- large_sizes_w pr fuel' size2 increment max_size ;;
        Ok (size :: rest)
      else Ok []
  end.

(** hash_code_analyzer.rs:69-95 *)
Definition candidate_sizes_w (pr : profile) (n min_size max_size : Z) : res (list Z) :=
  rest <- (if max_size <? 128 then Ok (zrange_incl min_size max_size)
           else if min_size <? last PRIMES 0 then Ok PRIMES
           else large_sizes_w pr (S (Z.to_nat max_size)) min_size (n / 3) max_size) ;;
  Ok (n :: rest).

(** hash_code_analyzer.rs:105-117 *)
Fixpoint count_collisions_w (pr : profile) (size max_size best : Z) (codes used : list Z) (num : Z) : res Z :=
  match codes with
  | [] => Ok num
  | code :: codes' =>
      if size =? 0 then Panic PDivByZero
      else
        let slot := code mod size in
        if slot <? max_size then
          if existsb (Z.eqb slot) used then
            num' <- arith pr usize (num + 1) ;;
            if best <=? num' then Ok num'
            else count_collisions_w pr size max_size best codes' used num'
          else count_collisions_w pr size max_size best codes' (slot :: used) num
        else Panic PIndexOutOfBounds
  end.

(** hash_code_analyzer.rs:97-138 *)
Fixpoint try_sizes_w (pr : profile) (codes : list Z) (min_size max_size : Z) (sizes : list Z)
    (acceptable best_size best_num : Z) : res (Z * Z) :=
  match sizes with
  | [] => Ok (best_size, best_num)
  | size :: sizes' =>
      if size <? min_size then
        try_sizes_w pr codes min_size max_size sizes' acceptable best_size best_num
      else if max_size <? size then Ok (best_size, best_num)
      else
        num <- count_collisions_w pr size max_size best_num codes [] 0 ;;
        let improves := num <? best_num in
        let take := improves && ((best_size =? 0) || (num <=? acceptable)) in
        let best_size' := if take then size else best_size in
        let best_num' := if take then num else best_num in
        if improves && (num <=? acceptable) then Ok (best_size', best_num')
        else
          acceptable' <- (if 0 <? acceptable then arith pr usize ((acceptable / 100) * 20) else Ok acceptable) ;;
          try_sizes_w pr codes min_size max_size sizes' acceptable' best_size' best_num'
  end.

(** hash_code_analyzer.rs:14-144 *)
Definition analyze_hash_codes_w (pr : profile) (codes : list Z) : res (Z * Z) :=
  let n := zlen codes in
  acceptable <- (if n <? 128 then Ok 0 else arith pr usize ((n / 100) * 5)) ;;
  min_size <- arith pr usize (n - acceptable) ;;
  max_size <- arith pr usize (n * (if n <? 128 then 16 else if n <? 1000 then 10 else 3)) ;;
  sizes <- candidate_sizes_w pr n min_size max_size ;;
  try_sizes_w pr codes min_size max_size sizes acceptable 0 n.
