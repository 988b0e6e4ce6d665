(** * Specification of C76 to C78: the minter and its ledgers together *)

From Verif Require Import Base BMap MultiKeyMap Bytes Types Amount Tx CallData Network Hex
  Transactions State Audit Ranges Rlp Parser Memo Driver Sys SysSpec GuardSpec WithdrawSpec BalanceSpec Ledger.

Definition Ledgers : Type := Principal -> Ledger.
Definition set_ledger (p : Principal) (l : Ledger) (ls : Ledgers) : Ledgers :=
  fun q => if bytes_eqb q p then l else ls q.

(** A ledger on which nothing has happened *)
Definition untouched (l : Ledger) : Prop :=
  (forall h, lg_balance l h = 0) /\ (forall o s, lg_allowance l o s = 0).

(** The minter does not withdraw tokens for itself. *)
Definition by_others (self : Principal) (l : Label) : Prop :=
  match l with LCall u _ => withdrawing u <> Some self | _ => True end.

Section Together.
Variable self : Principal.
Variable keccak : list N -> Hash.
Variable env : Sys -> Label -> Prop.

(** Function [id] waits for call [c] to be answered; the ledger executes it in block [b]. *)
Definition executes (s : Sys) (ls : Ledgers) (id : N) (c : LedgerCall) (b : N) (ls' : Ledgers) : Prop :=
  exists t l, bget id (sys_tasks s) = Some {| fl_task := t; fl_reply := None |} /\ task_call self t = Some c /\
    execute self c (ls (call_ledger c)) = Some (b, l) /\ ls' = set_ledger (call_ledger c) l ls.

(** The minter and its ledgers, from an installation with untouched ledgers on. A ledger
    call that is answered with success was executed by the ledger, at any time after it was
    made; one that is answered by an error was not. Meanwhile others than the minter do what
    they like on the ledgers. *)
Inductive together : Sys -> Ledgers -> Prop :=
| to_start now a s ls : sys_init now a = Done s -> (forall p, untouched (ls p)) -> together s ls
| to_minter s ls l : together s ls -> env s l -> by_others self l -> (forall id b, l <> LAnswer id (ReLedger (LedgerOk b))) ->
    together (step self keccak s l) ls
| to_ledger s ls id c b ls' : together s ls -> env s (LAnswer id (ReLedger (LedgerOk b))) ->
    executes s ls id c b ls' ->
    together (step self keccak s (LAnswer id (ReLedger (LedgerOk b)))) ls'
| to_others s ls p d l : together s ls -> doer d <> Some self -> perform self d (ls p) = Some l ->
    together s (set_ledger p l ls).
End Together.

(** The tokens in some accounts *)
Definition held_by (hs : list Holder) (l : Ledger) : N := sum_of (lg_balance l) hs.

(** The account whose transfers mint tokens *)
Definition minting (self : Principal) : Holder := holder (default_account self).

(** What an executed call costs the account [h] on ledger [p], when the ledger's transfer
    fee is [tf] *)
Definition op_cost (self : Principal) (tf : N) (p : Principal) (h : Holder) (o : Op) : N :=
  match fst o with
  | TransferFrom l from to n _ =>
      if bytes_eqb l p && holder_eqb (holder from) h
      then n + (if holder_eqb (holder to) (minting self) then 0 else tf) else 0
  | Transfer _ _ _ _ => 0
  end.
