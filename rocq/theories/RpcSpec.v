(** * Specification of C46, C47 and C49: answers of several providers *)

From Verif Require Import Base BMap MultiKeyMap Bytes Types Amount Tx CallData Network Hex
  Transactions State Audit Ranges Rlp Parser Memo Driver Rpc.

(** Provider [p] gave the value [v] *)
Definition gave {T} (m : MultiRpc T) (p : Service) (v : T) : Prop :=
  exists rs, m = Inconsistent rs /\ In (p, ROk v) rs.
(** the number of values given *)
Definition values_given {T} (m : MultiRpc T) : nat :=
  match m with
  | Inconsistent rs => List.length (filter (fun x => match snd x with ROk _ => true | RErr _ => false end) rs)
  | Consistent _ => 0%nat
  end.

(** All providers asked gave [v], or at least two gave a value and all values given are [v] *)
Definition agreed {T} (m : MultiRpc T) (v : T) : Prop :=
  m = Consistent (ROk v) \/
  ((2 <= values_given m)%nat /\ forall p x, gave m p x -> x = v).

(** Blocks and receipts as the minter uses them *)
Definition block_is (e : EvmBlock) (b : Block) : Prop :=
  bk_number b = eb_number e /\ eb_base_fee_per_gas e = Some (bk_base_fee_per_gas b).
Definition receipt_is (e : EvmReceipt) (r : Receipt) : Prop :=
  rc_block_hash r = er_block_hash e /\ rc_block_number r = er_block_number e /\
  rc_effective_gas_price r = er_effective_gas_price e /\ rc_gas_used r = er_gas_used e /\
  rc_transaction_hash r = er_transaction_hash e /\
  er_status e = Some (match rc_status r with TxFailure => 0 | TxSuccess => 1 end).

(** [l] are the providers, each once, that gave a history starting at block [k] *)
Definition voters (m : MultiRpc (option FeeHistory)) (k : N) (l : list Service) : Prop :=
  NoDup l /\ forall p, In p l <-> exists h, gave m p (Some h) /\ fh_oldest_block h = k.
(** the number of histories given *)
Definition histories_given (m : MultiRpc (option FeeHistory)) : nat :=
  match m with
  | Inconsistent rs => List.length (filter (fun x => match snd x with ROk (Some _) => true | _ => false end) rs)
  | Consistent _ => 0%nat
  end.
(** At least two providers gave a history, those that start at the same block are equal, and
    strictly more providers gave [h] than gave any history that starts at another block *)
Definition elected (m : MultiRpc (option FeeHistory)) (h : FeeHistory) : Prop :=
  (2 <= histories_given m)%nat /\
  (forall p x p' x', gave m p (Some x) -> gave m p' (Some x') -> fh_oldest_block x = fh_oldest_block x' -> x = x') /\
  (exists p, gave m p (Some h)) /\
  forall k l l', k <> fh_oldest_block h -> voters m (fh_oldest_block h) l -> voters m k l' -> (List.length l' < List.length l)%nat.
(** [h] was given by more than half of the providers that answered *)
Definition majority (m : MultiRpc (option FeeHistory)) (h : FeeHistory) : Prop :=
  m = Consistent (ROk (Some h)) \/
  exists l, NoDup l /\ (forall p, In p l -> gave m p (Some h)) /\ (histories_given m < 2 * List.length l)%nat.

(** Some answer says that it would have been too large *)
Fixpoint has_part (part whole : text) : Prop :=
  (exists tail, whole = part ++ tail) \/
  match whole with [] => False | _ :: w => has_part part w end.
Definition said_too_large {T} (m : MultiRpc T) : Prop :=
  exists message, has_part (text_of "size limit") message /\
    (m = Consistent (RErr (HttpErr (IcError 1 message))) \/
     exists rs p, m = Inconsistent rs /\ In (p, RErr (HttpErr (IcError 1 message))) rs).

(** ** C49 *)

(** The answer demands [e] cycles *)
Definition demands {T} (m : MultiRpc T) (e : N) : Prop :=
  exists received, let r := RErr (ProviderErr (TooFewCycles e received)) in
    m = Consistent r \/ exists rs p, m = Inconsistent rs /\ In (p, r) rs.
(** [c] is the largest demand *)
Definition largest_demand {T} (m : MultiRpc T) (e : N) : Prop :=
  demands m e /\ forall e', demands m e' -> e' <= e.

(** A list of attempts, each with the cycles attached and the answer, that starts with [c]
    cycles: after an answer that demands cycles twice the cycles (at most 2^128-1), or the
    largest demand if that is more, are attached; [last] is the last answer *)
Inductive attempts_from {T} : N -> list (N * MultiRpc T) -> MultiRpc T -> Prop :=
| LastAttempt c m : attempts_from c [(c, m)] m
| NextAttempt c m e l last : largest_demand m e ->
    attempts_from (N.max (N.min (2 * c) (2 ^ 128 - 1)) e) l last -> attempts_from c ((c, m) :: l) last.
