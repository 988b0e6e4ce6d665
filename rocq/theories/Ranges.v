(** * Ranges: inclusive block ranges.

    Model of /repo/minter/src/numeric/range.rs. A range is the pair (start, end). *)

From Verif Require Import Base Amount.

(** numeric/range.rs 18 [BlockRangeInclusive] *)
Definition Range : Type := N * N.

(** numeric/range.rs 71-91 [partition_at_checked] *)
Definition partition_at_checked (r : Range) (mid : N) : res (option Range * option Range) :=
  let '(start, end_) := r in
  if mid <=? start then Done (None, Some r)
  else if end_ <? mid then Done (Some r, None)
  else
    m <- expect (checked_decrement mid) "BUG: mid is strictly positive" ;;
    Done (Some (start, m), Some (mid, end_)).

(** numeric/range.rs 122-145 [partition_into_halves] *)
Definition partition_into_halves (r : Range) : res (option Range * option Range) :=
  let '(start, end_) := r in
  if end_ <=? start then Done (Some r, None)
  else
    d <- expect (checked_sub end_ start) "unreachable: end > start" ;;
    m <- expect (checked_add start (div_by_two d)) "unreachable: mid < end" ;;
    mid <- expect (checked_increment m) "unreachable: mid <= end" ;;
    partition_at_checked r mid.

(** numeric/range.rs 165-169 [join_with] *)
Definition join_with (r o : Range) : Range :=
  (N.min (fst r) (fst o), N.max (snd r) (snd o)).

(** numeric/range.rs 204-219 [BlockRangeChunks] *)
Record Chunks := { ck_range : Range; ck_size : N; ck_exhausted : bool }.

(** numeric/range.rs 197-202 [into_chunks] *)
Definition into_chunks (r : Range) (size : N) : res Chunks :=
  _ <- rassert (negb (size =? 0)) "chunk size must be non-zero" ;;
  Done {| ck_range := r; ck_size := size; ck_exhausted := false |}.

(** numeric/range.rs 221-262 [next] *)
Definition chunks_next (c : Chunks) : res (option Range * Chunks) :=
  let stop := {| ck_range := ck_range c; ck_size := ck_size c; ck_exhausted := true |} in
  if ck_exhausted c then Done (None, c)
  else if snd (ck_range c) <? fst (ck_range c) then Done (None, stop)
  else
    let mid := or_max (checked_add (fst (ck_range c)) (ck_size c)) in
    p <- partition_at_checked (ck_range c) mid ;;
    match p with
    | (Some lo, Some hi) =>
        Done (Some lo, {| ck_range := hi; ck_size := ck_size c; ck_exhausted := false |})
    | (Some lo, None) => Done (Some lo, stop)
    | (None, Some hi) => Done (Some hi, stop)
    | (None, None) => Panic "BUG: partition_at_checked should not return (None, None)"
    end.
