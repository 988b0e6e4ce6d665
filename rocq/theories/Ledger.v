(** * A ledger of the ICRC-1 and ICRC-2 standards, as the minter uses it

    The ledgers are not part of /repo: their interface is /repo/did/ledger.did 470-512. This is
    a model of what the two standards prescribe, for the calls in that interface that move
    tokens: [icrc1_transfer] (489), [icrc2_approve] (501), [icrc2_transfer_from] (503).
    Simplified: a call that fails changes nothing and is [None], whatever the error; memos,
    times and deduplication are left out (the minter sets no [created_at_time],
    ledger_client.rs 111); fees are burned. *)

From Verif Require Import Base BMap MultiKeyMap Bytes Types Amount Tx CallData Network Hex
  Transactions State Audit Ranges Rlp Parser Memo Driver Sys.

(** ledger.did 23-26 [Account]: a missing subaccount is the one of 32 zero bytes (ICRC-1) *)
Definition Holder : Type := Principal * Subaccount.
Definition holder (a : Account) : Holder :=
  (ac_owner a, match ac_subaccount a with Some s => s | None => repeat 0 32 end).
Definition holder_eqb (a b : Holder) : bool := bytes_eqb (fst a) (fst b) && bytes_eqb (snd a) (snd b).

Record Ledger := {
  lg_balance : Holder -> N;
  (** what the first lets the second spend *)
  lg_allowance : Holder -> Holder -> N;
  (** the number of the next block *)
  lg_next : N;
  (** the fee for transfers and approvals *)
  lg_fee : N
}.

Definition credit (h : Holder) (n : N) (l : Ledger) : Ledger :=
  {| lg_balance := fun x => if holder_eqb x h then lg_balance l x + n else lg_balance l x;
     lg_allowance := lg_allowance l; lg_next := lg_next l; lg_fee := lg_fee l |}.
Definition debit (h : Holder) (n : N) (l : Ledger) : option Ledger :=
  if lg_balance l h <? n then None
  else Some {| lg_balance := fun x => if holder_eqb x h then lg_balance l x - n else lg_balance l x;
               lg_allowance := lg_allowance l; lg_next := lg_next l; lg_fee := lg_fee l |}.
Definition allow (owner spender : Holder) (n : N) (l : Ledger) : Ledger :=
  {| lg_balance := lg_balance l;
     lg_allowance := fun o s => if holder_eqb o owner && holder_eqb s spender then n else lg_allowance l o s;
     lg_next := lg_next l; lg_fee := lg_fee l |}.
Definition next_block (l : Ledger) : Ledger :=
  {| lg_balance := lg_balance l; lg_allowance := lg_allowance l; lg_next := lg_next l + 1; lg_fee := lg_fee l |}.

Section Rules.
(** The minting account of the ledger *)
Variable minting : Holder.

(** What a movement costs besides the amount: minting and burning are free (ICRC-1) *)
Definition move_fee (from to : Holder) (l : Ledger) : N :=
  if holder_eqb to minting || holder_eqb from minting then 0 else lg_fee l.

(** ICRC-1: a transfer to the minting account burns, one from it mints. *)
Definition move (from to : Holder) (n : N) (l : Ledger) : option Ledger :=
  if holder_eqb to minting then
    if holder_eqb from minting then None else debit from n l
  else if holder_eqb from minting then Some (credit to n l)
  else match debit from (n + lg_fee l) l with
       | Some l' => Some (credit to n l')
       | None => None
       end.

(** [icrc1_transfer] by the owner of [from] *)
Definition transfer (from to : Holder) (n : N) (l : Ledger) : option Ledger :=
  match move from to n l with Some l' => Some (next_block l') | None => None end.

(** [icrc2_transfer_from] by the owner of [spender]: amount and fee are taken from the
    allowance, unless the tokens are the spender's own; nothing can be minted this way *)
Definition transfer_from (spender from to : Holder) (n : N) (l : Ledger) : option Ledger :=
  if holder_eqb spender from then transfer from to n l
  else if holder_eqb from minting then None
  else let need := n + move_fee from to l in
       if lg_allowance l from spender <? need then None
       else match move from to n l with
            | Some l' => Some (next_block (allow from spender (lg_allowance l from spender - need) l'))
            | None => None
            end.

(** [icrc2_approve] by the owner of [owner]: sets the allowance and costs the fee *)
Definition approve (owner spender : Holder) (n : N) (l : Ledger) : option Ledger :=
  if holder_eqb owner minting || holder_eqb owner spender then None
  else match debit owner (lg_fee l) l with
       | Some l' => Some (next_block (allow owner spender n l'))
       | None => None
       end.
End Rules.

(** The calls of the minter [self], whose default account is the minting account:
    ledger_client.rs 101-113, 199-214, 296-311 (no [spender_subaccount]), deposit.rs 91-103,
    134-146, withdraw.rs 70-84 (no [from_subaccount]). The answer is the number of the block. *)
Definition execute (self : Principal) (c : LedgerCall) (l : Ledger) : option (N * Ledger) :=
  let minter := holder (default_account self) in
  match match c with
        | Transfer _ to n _ => transfer minter minter (holder to) n l
        | TransferFrom _ from to n _ => transfer_from minter minter (holder from) (holder to) n l
        end with
  | Some l' => Some (lg_next l, l')
  | None => None
  end.

(** What others do on a ledger: transfers, approvals, spending of allowances; allowances
    expire, and the ledger's operator sets the fee *)
Inductive Doing :=
| DoTransfer (from to : Holder) (n : N)
| DoTransferFrom (spender from to : Holder) (n : N)
| DoApprove (owner spender : Holder) (n : N)
| DoExpire (owner spender : Holder)
| DoSetFee (n : N).
Definition perform (self : Principal) (d : Doing) (l : Ledger) : option Ledger :=
  let minter := holder (default_account self) in
  match d with
  | DoTransfer from to n => transfer minter from to n l
  | DoTransferFrom spender from to n => transfer_from minter spender from to n l
  | DoApprove owner spender n => approve minter owner spender n l
  | DoExpire owner spender => Some (allow owner spender 0 l)
  | DoSetFee n => Some {| lg_balance := lg_balance l; lg_allowance := lg_allowance l;
                          lg_next := lg_next l; lg_fee := n |}
  end.
(** Who does it *)
Definition doer (d : Doing) : option Principal :=
  match d with
  | DoTransfer from _ _ => Some (fst from)
  | DoTransferFrom spender _ _ _ => Some (fst spender)
  | DoApprove owner _ _ => Some (fst owner)
  | _ => None
  end.
