(** * C40 checked arithmetic, C09 block ranges *)

From Verif Require Import Base Bytes Amount Ranges RangesFacts ArithFacts.

(** ** Specification: the numbers of the minter are the integers below 2^256. *)
Definition fits (n : N) : Prop := n < 2 ^ 256.
(** [exactly o P]: [o] is the only number satisfying [P], if one fits; otherwise nothing. *)
Definition exactly (o : option N) (P : N -> Prop) : Prop :=
  forall r, o = Some r <-> P r /\ fits r.

(** C40 (operations). Each operation returns the mathematical result when it is
    defined and fits in 256 bits, and nothing otherwise. *)
Theorem C40_checked_operations :
  forall a b, fits a -> fits b ->
    exactly (checked_add a b) (fun r => r = a + b) /\
    exactly (checked_sub a b) (fun r => r + b = a) /\
    exactly (checked_increment a) (fun r => r = a + 1) /\
    exactly (checked_decrement a) (fun r => r + 1 = a) /\
    exactly (checked_mul a b) (fun r => r = a * b) /\
    exactly (checked_div_floor a b) (fun r => b <> 0 /\ r * b <= a < (r + 1) * b) /\
    exactly (checked_div_ceil a b)
      (fun r => b <> 0 /\ a <= r * b /\ forall r', a <= r' * b -> r <= r') /\
    (2 * div_by_two a <= a < 2 * (div_by_two a + 1)).
Proof. exact checked_operations_exact. Qed.
Print Assumptions C40_checked_operations.

(** C40 (conversions). Big-endian bytes and natural numbers are converted without
    loss, and only numbers over 256 bits are rejected. *)
Theorem C40_conversions :
  (forall n, fits n -> amount_of_nat n = Some n) /\
  (forall n, ~ fits n -> amount_of_nat n = None) /\
  (forall n, fits n -> List.length (amount_to_be n) = 32%nat /\ byte_list (amount_to_be n) /\
                       amount_from_be (amount_to_be n) = n) /\
  (forall l, List.length l = 32%nat -> byte_list l ->
             fits (amount_from_be l) /\ amount_to_be (amount_from_be l) = l).
Proof. exact conversions_exact. Qed.
Print Assumptions C40_conversions.

Example C40_witness :
  checked_add (2 ^ 256 - 1) 1 = None /\ checked_add 2 3 = Some 5 /\
  checked_sub 2 3 = None /\ checked_mul (2 ^ 128) (2 ^ 128) = None /\
  checked_div_ceil 7 2 = Some 4 /\ checked_div_floor 7 2 = Some 3 /\ checked_div_ceil 7 0 = None /\
  amount_of_nat (2 ^ 256) = None /\ fits 7.
Proof. vm_compute. intuition congruence. Qed.

(** ** Specification of ranges: the set of blocks they contain. *)
Definition contains (r : Range) (x : N) : Prop := fst r <= x <= snd r.
Definition blocks_in (r : Range) : N := snd r + 1 - fst r.
(** The ranges of [l], in order, are adjacent, non-empty, and go from [a] to [b]. *)
Fixpoint consecutive (a b : N) (l : list Range) : Prop :=
  match l with
  | [] => a = b + 1
  | r :: l' => fst r = a /\ fst r <= snd r <= b /\ consecutive (snd r + 1) b l'
  end.

(** C09 (chunks). Running the chunk iterator of a non-empty range to its end, for any
    positive chunk size, never panics, always ends, and yields consecutive ranges of at
    most that size from the first to the last block. *)
Theorem C09_chunks :
  forall a b size, a <= b -> fits b -> 0 < size ->
    exists c l,
      into_chunks (a, b) size = Done c /\ yields c l /\
      consecutive a b l /\ Forall (fun r => blocks_in r <= size) l /\
      (forall l', yields c l' -> l' = l).
Proof. exact chunks_partition. Qed.
Print Assumptions C09_chunks.

(** C09 (what consecutive means). Each block of the range is in exactly one chunk. *)
Theorem C09_chunks_disjoint_cover :
  forall a b l x, consecutive a b l ->
    (a <= x <= b <-> exists r, In r l /\ contains r x) /\
    (forall i j ri rj, nth_error l i = Some ri -> nth_error l j = Some rj ->
       contains ri x -> contains rj x -> i = j).
Proof. exact consecutive_cover. Qed.
Print Assumptions C09_chunks_disjoint_cover.

(** C09 (empty range, zero chunk size). *)
Theorem C09_chunks_edge :
  (forall a b size, b < a -> 0 < size -> exists c, into_chunks (a, b) size = Done c /\ yields c []) /\
  (forall r, exists msg, into_chunks r 0 = Panic msg).
Proof. exact chunks_edge. Qed.
Print Assumptions C09_chunks_edge.

(** C09 (halves). With at least two blocks both halves are non-empty, adjacent, and
    differ in size by at most one; a single block is not split. *)
Theorem C09_halves :
  (forall a b, a < b -> fits b ->
     exists m, a <= m < b /\
       partition_into_halves (a, b) = Done (Some (a, m), Some (m + 1, b)) /\
       blocks_in (m + 1, b) <= blocks_in (a, m) <= blocks_in (m + 1, b) + 1) /\
  (forall a, fits a -> partition_into_halves (a, a) = Done (Some (a, a), None)).
Proof. exact halves_partition. Qed.
Print Assumptions C09_halves.

(** C09 (join). Joining two adjacent ranges gives their union. *)
Theorem C09_join :
  forall a m b x, a <= m -> m < b ->
    contains (join_with (a, m) (m + 1, b)) x <-> contains (a, m) x \/ contains (m + 1, b) x.
Proof. exact join_union. Qed.
Print Assumptions C09_join.

Example C09_witness :
  exists c, into_chunks (5, 12) 3 = Done c /\ yields c [(5, 7); (8, 10); (11, 12)].
Proof.
  eexists; split; [reflexivity|].
  eapply yields_step; [vm_compute; reflexivity|].
  eapply yields_step; [vm_compute; reflexivity|].
  eapply yields_step; [vm_compute; reflexivity|].
  eapply yields_end. vm_compute. reflexivity.
Qed.
