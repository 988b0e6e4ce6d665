(** * Specification of C68: an accepted withdrawal can always still be completed. *)

From Verif Require Import Base BMap MultiKeyMap Bytes Types Amount Tx Transactions State Audit Memo Driver Sys SysSpec
  WithdrawSpec FeeSpec QueueSpec FinalizeSpec.

(** Everything that is asked fails: the nodes and the signer answer with errors, and what
    was answered is delivered. *)
Definition failing (l : Label) : Prop :=
  match l with
  | LDeliver _ false _ => True
  | LAnswer _ (ReFees None) | LAnswer _ (ReCount None) | LAnswer _ ReSent => True
  | LAnswer _ (ReSigs l) => Forall (fun o => o = None) l
  | LAnswer _ (ReReceipts l) => Forall (fun o => o = ReceiptErr) l
  | _ => False
  end.

Section Helpful.
(** What the nodes and the signer answer: the current fees, the signature of a transaction,
    and the receipt of a transaction with a given hash that was signed for a withdrawal,
    which may depend on what happened *)
Variable fees : FeeHistory.
Variable sign : Tx -> Signature.
Variable mine : list EventType -> N -> Hash -> Receipt.

(** Each receipt is one that the network can return *)
Definition fair_receipts : Prop :=
  forall h b x, In x (attempts h b) ->
    rc_transaction_hash (mine h b (st_hash x)) = st_hash x /\ honest h b (mine h b (st_hash x)).

(** Nothing fails: timers fire, answers are delivered, the fee history is [fees], a number of
    mined transactions never counts a transaction of the minter that is not signed yet,
    everything is signed, and the receipts are those of [mine] (or there is none yet). *)
Definition helpful (s : Sys) (l : Label) : Prop :=
  match l with
  | LTimer _ _ => True
  | LDeliver _ false _ => True
  | LAnswer _ (ReFees (Some h)) => h = fees
  | LAnswer _ (ReCount (Some n)) =>
      forall k, k < n -> flying (withdrawals (sys_state s)) k -> bget k (by_key (sent (withdrawals (sys_state s)))) <> None
  | LAnswer id (ReSigs l) => exists count batch r,
      bget id (sys_tasks s) = Some {| fl_task := TRetrieveSign count batch; fl_reply := r |} /\
      l = map (fun x => Some (sign (snd x))) batch
  | LAnswer _ ReSent => True
  | LAnswer id (ReReceipts l) => exists hashes r,
      bget id (sys_tasks s) = Some {| fl_task := TRetrieveReceipts hashes; fl_reply := r |} /\
      forall x a, In (x, a) (combine hashes l) -> a = ReceiptMissing \/
        a = ReceiptOk (mine (history (sys_log s)) (snd x) (fst x))
  | _ => False
  end.
Fixpoint helped (self : Principal) (keccak : list N -> Hash) (s : Sys) (ls : list Label) : Prop :=
  match ls with
  | [] => True
  | l :: ls => helpful s l /\ helped self keccak (step self keccak s l) ls
  end.

(** What the withdrawals that are not finalized need: enough nonces, a fee history that
    gives a positive price, and that those without a transaction can pay this price *)
Record servable (s : Sys) : Prop := {
  sv_price : exists g, estimate_transaction_fee (min_max_priority_fee_per_gas (sys_state s)) fees = ROk g /\
    0 < max_price g /\ forall r, In r (queue s) -> affordable g r = true;
  sv_nonces : next_nonce (withdrawals (sys_state s)) + N.of_nat (List.length (queue s)) + 5 <= U256_MAX
}.
End Helpful.
