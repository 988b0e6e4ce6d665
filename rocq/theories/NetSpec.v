(** * How the network reads a transaction (specification of C82 and of C42).

    Written from the Yellow Paper, appendix B (RLP), EIP-2718 and EIP-1559, and independent
    of the minter's encoder. The reader is strict: it accepts only the shortest form of
    lengths and of numbers, as the nodes of the network do. *)

From Verif Require Import Base Bytes Types Rlp Sign.

(** The first [n] bytes and the rest, if there are so many *)
Definition cut (n : N) (l : list N) : option (list N * list N) :=
  if n <=? N.of_nat (List.length l) then Some (firstn (N.to_nat n) l, skipn (N.to_nat n) l) else None.
(** The same for a length of its own [k] bytes: without leading zero and above 55 *)
Definition cut_long (k : N) (l : list N) : option (list N * list N) :=
  match cut k l with
  | Some (lb, rest) =>
      match lb with
      | 0 :: _ => None
      | _ => if of_be lb <=? 55 then None else cut (of_be lb) rest
      end
  | None => None
  end.

(** The first item of a string: a byte string or the content of a list, and what follows *)
Inductive Item := IStr (l : list N) | IList (l : list N).
Definition read_item (b : N) (l : list N) : option (Item * list N) :=
  let str := option_map (fun x => (IStr (fst x), snd x)) in
  let lst := option_map (fun x => (IList (fst x), snd x)) in
  if b <? 128 then Some (IStr [b], l)
  else if b <? 184 then
    match cut (b - 128) l with
    | Some ([c], _) as x => if c <? 128 then None else str x
    | x => str x
    end
  else if b <? 192 then str (cut_long (b - 183) l)
  else if b <? 248 then lst (cut (b - 192) l)
  else if b <? 256 then lst (cut_long (b - 247) l)
  else None.

(** All items of a string. [fuel] bounds the number of items and the depth. *)
Fixpoint read_items (fuel : nat) (l : list N) : option (list rlp) :=
  match l with
  | [] => Some []
  | b :: rest =>
      match fuel with
      | O => None
      | S f =>
          match read_item b rest with
          | None => None
          | Some (IStr x, after) => option_map (cons (RStr x)) (read_items f after)
          | Some (IList x, after) =>
              match read_items f x, read_items f after with
              | Some y, Some items => Some (RList y :: items)
              | _, _ => None
              end
          end
      end
  end.

(** Numbers are big-endian without leading zeros, addresses and storage keys of fixed size *)
Definition read_num (l : list N) : option N :=
  match l with
  | 0 :: _ => None
  | _ => if (List.length l <=? 32)%nat then Some (of_be l) else None
  end.
Definition read_fixed (n : nat) (l : list N) : option N :=
  if (List.length l =? n)%nat then Some (of_be l) else None.
Definition read_bool (l : list N) : option bool :=
  match l with [] => Some false | [1] => Some true | _ => None end.
Fixpoint read_all {A B} (f : A -> option B) (l : list A) : option (list B) :=
  match l with
  | [] => Some []
  | x :: l' =>
      match f x, read_all f l' with
      | Some y, Some r => Some (y :: r)
      | _, _ => None
      end
  end.
Definition read_key (x : rlp) : option N := match x with RStr l => read_fixed 32 l | _ => None end.
Definition read_access (x : rlp) : option (Address * list N) :=
  match x with
  | RList [RStr a; RList ks] =>
      match read_fixed 20 a, read_all read_key ks with
      | Some a, Some ks => Some (a, ks)
      | _, _ => None
      end
  | _ => None
  end.

(** EIP-1559: [0x02 || rlp([chain_id, nonce, max_priority_fee_per_gas, max_fee_per_gas,
    gas_limit, destination, amount, data, access_list, signature_y_parity, signature_r,
    signature_s])] *)
Definition read_fields (l : list rlp) : option (Tx * list rlp) :=
  match l with
  | RStr chain :: RStr nonce :: RStr tip :: RStr fee :: RStr gas :: RStr to :: RStr amount :: RStr data
      :: RList access :: rest =>
      match read_num chain, read_num nonce, read_num tip, read_num fee, read_num gas, read_fixed 20 to,
            read_num amount, read_all read_access access with
      | Some chain, Some nonce, Some tip, Some fee, Some gas, Some to, Some amount, Some access =>
          Some ({| tx_chain_id := chain; tx_nonce := nonce; tx_max_priority_fee_per_gas := tip;
                   tx_max_fee_per_gas := fee; tx_gas_limit := gas; tx_destination := to; tx_amount := amount;
                   tx_data := data; tx_access_list := access |}, rest)
      | _, _, _, _, _, _, _, _ => None
      end
  | _ => None
  end.
Definition read_list (raw : list N) : option (list rlp) :=
  match raw with
  | 2 :: l =>
      match read_items (List.length l) l with
      | Some [RList items] => Some items
      | _ => None
      end
  | _ => None
  end.
Definition read_raw (raw : list N) : option (Tx * Signature) :=
  match read_list raw with
  | Some items =>
      match read_fields items with
      | Some (t, [RStr y; RStr r; RStr s]) =>
          match read_bool y, read_num r, read_num s with
          | Some y, Some r, Some s => Some (t, {| sg_y_parity := y; sg_r := r; sg_s := s |})
          | _, _, _ => None
          end
      | _ => None
      end
  | None => None
  end.
(** The bytes whose hash is signed: the same without the signature *)
Definition read_unsigned (raw : list N) : option Tx :=
  match read_list raw with
  | Some items => match read_fields items with Some (t, []) => Some t | _ => None end
  | None => None
  end.

Section Network.
Variable keccak : list N -> Hash.
Variable Key : Type.
(** The public key of a signature, if it is valid (EIP-2 included) *)
Variable recover : Hash -> bool -> N -> N -> option Key.

(** The network takes [raw] for the transaction [t] sent by the owner of [key] *)
Definition sent_by (key : Key) (t : Tx) (raw : list N) : Prop :=
  exists sg p, read_raw raw = Some (t, sg) /\ byte_list p /\ read_unsigned p = Some t /\
    recover (keccak p) (sg_y_parity sg) (sg_r sg) (sg_s sg) = Some key.
End Network.
