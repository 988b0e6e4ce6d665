(** * Hex: hexadecimal text and the text form of addresses.

    Model of /repo/minter/src/eth_types/mod.rs 84-133 (and the [hex] crate functions
    it calls), address.rs 44-52. Text is a list of Unicode code points. *)

From Verif Require Import Base Bytes Types.

(** [hex] crate: value of one hexadecimal digit, either case *)
Definition hex_val (c : N) : option N :=
  if (48 <=? c) && (c <=? 57) then Some (c - 48)
  else if (65 <=? c) && (c <=? 70) then Some (c - 55)
  else if (97 <=? c) && (c <=? 102) then Some (c - 87)
  else None.

(** [hex] crate: lower-case digit of a nibble *)
Definition hex_digit (v : N) : N := if v <? 10 then 48 + v else 87 + v.

(** [hex::decode]: pairs of digits; [None] on an odd length or a non-digit *)
Fixpoint hex_decode (s : text) : option (list N) :=
  match s with
  | [] => Some []
  | a :: b :: s' =>
      match hex_val a, hex_val b, hex_decode s' with
      | Some x, Some y, Some l => Some (x * 16 + y :: l)
      | _, _, _ => None
      end
  | _ => None
  end.

(** [hex::encode] *)
Definition hex_encode (l : list N) : text :=
  flat_map (fun b => [hex_digit (b / 16); hex_digit (b mod 16)]) l.

(** [hex::decode_to_slice] into [n] bytes *)
Definition hex_decode_to (n : nat) (s : text) : option (list N) :=
  match hex_decode s with
  | Some l => if Nat.eqb (List.length l) n then Some l else None
  | None => None
  end.

(** eth_types/mod.rs 84-96 [FromStr for Address] *)
Definition address_of_text (s : text) : option Address :=
  match s with
  | 48 :: 120 :: s' => option_map of_be (hex_decode_to 20 s')
  | _ => None
  end.

(** [u8::to_ascii_uppercase] *)
Definition ascii_upper (c : N) : N := if (97 <=? c) && (c <=? 122) then c - 32 else c.

(** eth_types/mod.rs 110-116: the nibbles of the checksum *)
Definition nibbles (l : list N) : list N := flat_map (fun b => [b / 16; b mod 16]) l.

(** eth_types/mod.rs 104-129 [Display for Address] (EIP-55), for any hash function
    on bytes returning 32 bytes. *)
Definition address_to_text (keccak : list N -> list N) (a : Address) : text :=
  let chars := hex_encode (be_bytes 20 a) in
  [48; 120] ++
  map (fun x => if 8 <=? snd x then ascii_upper (fst x) else fst x)
      (combine chars (nibbles (keccak chars))).

Inductive AddressValidationError := AddrInvalid | AddrNotSupported (a : Address).

(** address.rs 44-52 [validate_address_as_destination] *)
Definition validate_address_as_destination (s : text) : result Address AddressValidationError :=
  match address_of_text s with
  | None => RErr AddrInvalid
  | Some a => if a =? ADDRESS_ZERO then RErr (AddrNotSupported a) else ROk a
  end.
