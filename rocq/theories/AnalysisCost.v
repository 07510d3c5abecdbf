(** The analysis of hash codes again, counting the work done: the number of table sizes tried
    (each clears the bit vector once) and the number of codes reduced modulo a size. *)
From Coq Require Import List ZArith Bool.
From Verif Require Import Base HashCodeAnalyzer.
Import ListNotations.
Open Scope Z_scope.

(** hash_code_analyzer.rs:105-117; the second component counts the rounds of the loop. *)
Fixpoint count_collisions_steps (size max_size best : Z) (codes used : list Z) (num steps : Z) : res (Z * Z) :=
  match codes with
  | [] => Ok (num, steps)
  | code :: codes' =>
      if size =? 0 then Panic PDivByZero
      else
        let slot := code mod size in
        if slot <? max_size then
          if existsb (Z.eqb slot) used then
            if best <=? num + 1 then Ok (num + 1, steps + 1)
            else count_collisions_steps size max_size best codes' used (num + 1) (steps + 1)
          else count_collisions_steps size max_size best codes' (slot :: used) num (steps + 1)
        else Panic PIndexOutOfBounds
  end.

(** hash_code_analyzer.rs:97-138; [tries] and [steps] count. *)
Fixpoint try_sizes_steps (codes : list Z) (min_size max_size : Z) (sizes : list Z)
    (acceptable best_size best_num tries steps : Z) : res ((Z * Z) * (Z * Z)) :=
  match sizes with
  | [] => Ok ((best_size, best_num), (tries, steps))
  | size :: sizes' =>
      if size <? min_size then
        try_sizes_steps codes min_size max_size sizes' acceptable best_size best_num tries steps
      else if max_size <? size then Ok ((best_size, best_num), (tries, steps))
      else
        counted <- count_collisions_steps size max_size best_num codes [] 0 steps ;;
        let num := fst counted in
        let improves := num <? best_num in
        let take := improves && ((best_size =? 0) || (num <=? acceptable)) in
        let best_size' := if take then size else best_size in
        let best_num' := if take then num else best_num in
        if improves && (num <=? acceptable) then Ok ((best_size', best_num'), (tries + 1, snd counted))
        else
          let acceptable' :=
            if 0 <? acceptable then (acceptable / 100) * 20 else acceptable in
          try_sizes_steps codes min_size max_size sizes' acceptable' best_size' best_num' (tries + 1) (snd counted)
  end.

(** hash_code_analyzer.rs:14-144.  Returns the result, the sizes tried and the codes reduced. *)
Definition analyze_hash_codes_steps (codes : list Z) : res ((Z * Z) * (Z * Z)) :=
  let n := zlen codes in
  let acceptable := initial_acceptable n in
  let min_size := n - acceptable in
  let max_size := max_table_size n in
  sizes <- candidate_sizes n min_size max_size ;;
  try_sizes_steps codes min_size max_size sizes acceptable 0 n 0 0.
