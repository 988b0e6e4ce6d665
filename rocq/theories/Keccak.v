(** * Keccak: the hash function Keccak-256.

    [ic_sha3::Keccak256::hash] as used by /repo/minter/src/address.rs 20-22, tx.rs 432 and 525
    and eth_types/mod.rs 131-133, and by the EVM for the topics of events
    (evm_helper_contract/src/Deposit.sol 19-25). The dependency is not part of the
    repository; this is written after the Keccak reference. A lane is a number below 2^64;
    the lane with coordinates (x, y) is at position x + 5 y. *)

From Verif Require Import Base Bytes Types.

Definition lane_mask : N := 18446744073709551615.
Definition rotl (n x : N) : N := N.lor (N.land (N.shiftl x n) lane_mask) (N.shiftr x (64 - n)).

Definition round_constants : list N :=
  [0x1; 0x8082; 0x800000000000808A; 0x8000000080008000; 0x808B; 0x80000001; 0x8000000080008081;
   0x8000000000008009; 0x8A; 0x88; 0x80008009; 0x8000000A; 0x8000808B; 0x800000000000008B;
   0x8000000000008089; 0x8000000000008003; 0x8000000000008002; 0x8000000000000080; 0x800A;
   0x800000008000000A; 0x8000000080008081; 0x8000000000008080; 0x80000001; 0x8000000080008008].
Definition rotations : list N :=
  [0; 1; 62; 28; 27; 36; 44; 6; 55; 20; 3; 10; 43; 25; 39; 41; 45; 15; 21; 8; 18; 2; 61; 56; 14].

Definition lane (a : list N) (x y : nat) : N := nth (x mod 5 + 5 * (y mod 5)) a 0.
Definition lanes (f : nat -> nat -> N) : list N := map (fun i => f (i mod 5)%nat (i / 5)%nat) (seq 0 25).

Definition theta (a : list N) : list N :=
  let c := map (fun x => fold_left (fun n y => N.lxor n (lane a x y)) (seq 0 5) 0) (seq 0 5) in
  let d := map (fun x => N.lxor (nth ((x + 4) mod 5) c 0) (rotl 1 (nth ((x + 1) mod 5) c 0))) (seq 0 5) in
  lanes (fun x y => N.lxor (lane a x y) (nth x d 0)).
Definition rho (a : list N) : list N := lanes (fun x y => rotl (nth (x + 5 * y) rotations 0) (lane a x y)).
Definition pi (a : list N) : list N := lanes (fun x y => lane a (x + 3 * y) x).
Definition chi (a : list N) : list N :=
  lanes (fun x y => N.lxor (lane a x y) (N.land (N.lxor lane_mask (lane a (x + 1) y)) (lane a (x + 2) y))).
Definition iota (rc : N) (a : list N) : list N :=
  match a with x :: a' => N.lxor x rc :: a' | [] => [] end.
Definition keccak_f (a : list N) : list N :=
  fold_left (fun a rc => iota rc (chi (pi (rho (theta a))))) round_constants a.

Definition rate : nat := 136.
(** padding: a one bit, zeros and a final one bit *)
Definition keccak_pad (m : list N) : list N :=
  let q := (rate - List.length m mod rate)%nat in
  m ++ (if Nat.eqb q 1 then [129] else 1 :: repeat 0 (q - 2) ++ [128]).

(** lanes of a block are little-endian *)
Definition of_le (l : list N) : N := of_be (rev l).
Definition le_bytes (n : nat) (x : N) : list N := rev (be_bytes n x).
Definition absorb_block (a block : list N) : list N :=
  map (fun i => if Nat.ltb i 17 then N.lxor (nth i a 0) (of_le (firstn 8 (skipn (8 * i) block))) else nth i a 0)
      (seq 0 25).
Fixpoint absorb (blocks : nat) (m a : list N) : list N :=
  match blocks with
  | O => a
  | S n => absorb n (skipn rate m) (keccak_f (absorb_block a (firstn rate m)))
  end.

Definition keccak256 (m : list N) : list N :=
  let a := absorb (List.length m / rate + 1) (keccak_pad m) (repeat 0 25) in
  flat_map (fun i => le_bytes 8 (nth i a 0)) (seq 0 4).

(** address.rs 11-18 [ecdsa_public_key_to_address]: [key] is the uncompressed SEC1 form of the
    key, 65 bytes *)
Definition address_of_key (key : list N) : Address := of_be (skipn 12 (keccak256 (skipn 1 key))).
