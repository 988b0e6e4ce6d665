(** * Amount: checked 256-bit arithmetic.

    Model of /repo/minter/src/checked_amount/mod.rs and numeric/mod.rs. *)

From Verif Require Import Base Bytes.

(** checked_amount/mod.rs 100-102 [checked_add] *)
Definition checked_add (a b : N) : option N :=
  if a + b <=? U256_MAX then Some (a + b) else None.
(** checked_amount/mod.rs 112-114 [checked_sub] *)
Definition checked_sub (a b : N) : option N :=
  if b <=? a then Some (a - b) else None.
(** checked_amount/mod.rs 104-106 [checked_increment] *)
Definition checked_increment (a : N) : option N := checked_add a 1.
(** checked_amount/mod.rs 108-110 [checked_decrement] *)
Definition checked_decrement (a : N) : option N := checked_sub a 1.
(** checked_amount/mod.rs 120-122 [checked_mul] *)
Definition checked_mul (a b : N) : option N :=
  if a * b <=? U256_MAX then Some (a * b) else None.
(** checked_amount/mod.rs 124-135 [checked_div_ceil] *)
Definition checked_div_ceil (a b : N) : option N :=
  if b =? 0 then None
  else if a mod b =? 0 then Some (a / b) else checked_increment (a / b).
(** checked_amount/mod.rs 137-144 [checked_div_floor] *)
Definition checked_div_floor (a b : N) : option N :=
  if b =? 0 then None else Some (a / b).
(** checked_amount/mod.rs 146-148 [div_by_two] (shift right by one) *)
Definition div_by_two (a : N) : N := N.shiftr a 1.
(** checked_amount/mod.rs 183-196 [TryFrom<candid::Nat>]: the byte length of the
    number (at least one byte) must not exceed 32. *)
Definition nat_byte_len (n : N) : N := N.max 1 ((N.size n + 7) / 8).
Definition amount_of_nat (n : N) : option N :=
  if nat_byte_len n <=? 32 then Some (of_be (be_bytes 32 n)) else None.
(** checked_amount/mod.rs 92-94 [from_be_bytes], 96-98 [to_be_bytes] *)
Definition amount_from_be (l : list N) : N := of_be l.
Definition amount_to_be (n : N) : list N := be_bytes 32 n.

(** [opt.unwrap_or(MAX)] *)
Definition or_max (o : option N) : N := match o with Some x => x | None => U256_MAX end.

(** numeric/mod.rs 63-66 [WeiPerGas::transaction_cost] *)
Definition transaction_cost (price gas : N) : option N := checked_mul price gas.
(** numeric/mod.rs 70-73 [Wei::into_wei_per_gas] *)
Definition into_wei_per_gas (wei gas : N) : option N := checked_div_floor wei gas.
(** numeric/mod.rs 25-30 [wei_from_milli_ether] *)
Definition wei_from_milli_ether (v : N) : res N :=
  expect (checked_mul v 1000000000000000000) "any u128 multiplied by 10^15 always fits in a u256".

(** Rust saturating operations on [u64] / [usize]. *)
Definition u64_saturating_add (a b : N) : N := N.min (a + b) U64_MAX.

(** ** Facts *)
Lemma checked_add_some a b c : checked_add a b = Some c <-> c = a + b /\ a + b <= U256_MAX.
Proof.
  unfold checked_add. destruct (N.leb_spec (a + b) U256_MAX); split.
  - injection 1 as <-; auto.
  - intros [-> _]; auto.
  - discriminate.
  - intros [_ H1]; lia.
Qed.
Lemma checked_sub_some a b c : checked_sub a b = Some c <-> b <= a /\ c = a - b.
Proof.
  unfold checked_sub. destruct (N.leb_spec b a); split.
  - injection 1 as <-; auto.
  - intros [_ ->]; auto.
  - discriminate.
  - intros [H1 _]; lia.
Qed.
Lemma checked_sub_none a b : checked_sub a b = None <-> a < b.
Proof. unfold checked_sub. destruct (N.leb_spec b a); split; try congruence; lia. Qed.
Lemma checked_mul_some a b c : checked_mul a b = Some c <-> c = a * b /\ a * b <= U256_MAX.
Proof.
  unfold checked_mul. destruct (N.leb_spec (a * b) U256_MAX); split.
  - injection 1 as <-; auto.
  - intros [-> _]; auto.
  - discriminate.
  - intros [_ H1]; lia.
Qed.
Lemma checked_mul_none a b : checked_mul a b = None <-> U256_MAX < a * b.
Proof. unfold checked_mul. destruct (N.leb_spec (a * b) U256_MAX); split; try congruence; lia. Qed.
Lemma checked_add_none a b : checked_add a b = None <-> U256_MAX < a + b.
Proof. unfold checked_add. destruct (N.leb_spec (a + b) U256_MAX); split; try congruence; lia. Qed.

Lemma or_max_add a b : or_max (checked_add a b) = N.min (a + b) U256_MAX.
Proof. unfold checked_add, or_max. destruct (N.leb_spec (a + b) U256_MAX); lia. Qed.
Lemma or_max_mul a b : or_max (checked_mul a b) = N.min (a * b) U256_MAX.
Proof. unfold checked_mul, or_max. destruct (N.leb_spec (a * b) U256_MAX); lia. Qed.

Lemma amount_of_nat_spec n :
  amount_of_nat n = if n <=? U256_MAX then Some n else None.
Proof.
  unfold amount_of_nat, nat_byte_len.
  assert (Hs : (N.max 1 ((N.size n + 7) / 8) <=? 32) = (n <=? U256_MAX)).
  { destruct (N.leb_spec n U256_MAX) as [Hle|Hgt].
    - apply N.leb_le. assert (N.size n <= 256).
      { destruct (N.eq_dec n 0) as [->|Hn]; [cbn; lia|].
        rewrite N.size_log2 by auto. assert (N.log2 n < 256); [|lia].
        apply N.log2_lt_pow2; [lia|]. unfold U256_MAX in Hle. lia. }
      lia.
    - apply N.leb_gt. assert (256 < N.size n).
      { rewrite N.size_log2 by (unfold U256_MAX in Hgt; lia).
        assert (256 <= N.log2 n); [|lia].
        apply N.log2_le_pow2; unfold U256_MAX in Hgt; lia. }
      lia. }
  rewrite Hs. destruct (N.leb_spec n U256_MAX); auto.
  rewrite of_be_be_bytes_small; auto. rewrite u256_pow. lia.
Qed.

Lemma div_by_two_spec a : div_by_two a = a / 2.
Proof. unfold div_by_two. rewrite N.shiftr_div_pow2. reflexivity. Qed.

#[global] Opaque U256_MAX.
Lemma U256_MAX_pos : 0 < U256_MAX.
Proof. reflexivity. Qed.
Lemma U256_MAX_val : U256_MAX + 1 = 2 ^ 256.
Proof. reflexivity. Qed.
