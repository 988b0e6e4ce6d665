(** * Sys: the canister, its ledgers and providers as a transition system.

    A configuration is the canister's durable and volatile state together with the
    suspended functions, the operations executed by the ledgers and some history
    used only to state properties. A run is a list of labels chosen by an adversary:
    timers fire and users call at any time, ledgers and providers answer whenever and
    whatever they like (within the rules a ledger obeys, see [ledger_allows]), answers
    are delivered in any order, and any callback may trap.

    Modelled rules of the Internet Computer:
    - a message segment is atomic;
    - a panic or trap in the first segment undoes the whole call;
    - a panic or trap in a callback undoes that segment, and then the suspended
      function is dropped in the state it had at the [await]: its scope guards and
      guards run ([cleanup]);
    - an upgrade happens only when the canister is stopped, i.e. has no suspended
      function; an upgrade that traps changes nothing;
    - time does not go backwards.
    A ledger call that is answered by an error or a reject did not take effect. *)

From Verif Require Import Base BMap MultiKeyMap Bytes Types Amount Tx CallData Network Hex
  Transactions State Audit Ranges Rlp Parser Memo Driver.

Section Sys.

(** the canister's own principal, [ic_cdk::id()] *)
Variable self : Principal.
(** Keccak-256 *)
Variable keccak : list N -> Hash.

Definition default_account (p : Principal) : Account := {| ac_owner := p; ac_subaccount := None |}.
Definition fees_account : Account := {| ac_owner := self; ac_subaccount := Some FEES_SUBACCOUNT |}.

(** The ledger call a suspended function waits for: deposit.rs 91-103 and 134-146,
    withdraw.rs 70-84, ledger_client.rs 95-113, 193-214, 290-312 with the arguments
    of main.rs 326-328, 352-360, 399-401, 518-520, 541-551, 560-569, 635-637, 662-664 *)
Definition task_call (t : Task) : option LedgerCall :=
  match t with
  | TMint j =>
      Some (Transfer (mj_ledger j)
              {| ac_owner := dep_principal (mj_event j); ac_subaccount := dep_subaccount (mj_event j) |}
              (mj_amount j) (Some (MemoMint (memo_of_deposit (mj_event j)))))
  | TMintFee j _ =>
      Some (Transfer (mj_ledger j) fees_account
              (match mj_fee j with Some f => f | None => 0 end) None)
  | TReimburse ledger _ r _ =>
      Some (Transfer ledger {| ac_owner := rr_to r; ac_subaccount := rr_to_subaccount r |}
              (rr_reimbursed_amount r) (Some (MemoMint (memo_of_reimbursement r))))
  | TNativeFee j =>
      Some (TransferFrom (nj_ledger j) (default_account (nj_caller j)) fees_account
              (match nj_fee j with Some f => f - nj_transfer_fee j | None => 0 end) None)
  | TNativeBurn j =>
      Some (TransferFrom (nj_ledger j) (default_account (nj_caller j)) (default_account self)
              (nj_amount j) (Some (MemoBurn (BurnConvert (nj_destination j)))))
  | TNativeRefund caller ledger amount _ =>
      Some (TransferFrom ledger fees_account (default_account caller) amount None)
  | TErc20Fee j =>
      Some (TransferFrom (ej_native_ledger j) (default_account (ej_caller j)) fees_account
              (match ej_fee j with Some f => f - ej_transfer_fee j | None => 0 end) None)
  | TErc20GasBurn j =>
      Some (TransferFrom (ej_native_ledger j) (default_account (ej_caller j)) (default_account self)
              (ej_tx_fee j)
              (Some (MemoBurn (BurnErc20GasFee (et_symbol (ej_token j)) (ej_amount j)
                                 (ej_destination j)))))
  | TErc20Burn j i =>
      Some (TransferFrom (et_ledger_id (ej_token j)) (default_account (ej_caller j))
              (default_account self) (ej_amount j)
              (Some (MemoBurn (BurnErc20Convert i (ej_destination j)))))
  | TErc20Refund caller ledger amount _ _ =>
      Some (TransferFrom ledger fees_account (default_account caller) amount None)
  | _ => None
  end.

(** Answers *)
Inductive Reply :=
| ReLedger (r : LedgerReply)
| ReBlock (r : option N)
| ReLogs (r : LogsReply)
| ReFees (r : option FeeHistory)
| ReCount (r : option N)
| ReSigs (l : list (option Signature))
| ReSent
| ReReceipts (l : list ReceiptReply).

(** Is this an answer to what the function waits for? *)
Definition reply_fits (t : Task) (r : Reply) : bool :=
  match r with
  | ReLedger _ => is_some (task_call t)
  | ReBlock _ => match t with TScrapeBlock _ => true | _ => false end
  | ReLogs _ => match t with TScrapeLogs _ => true | _ => false end
  | ReFees _ => match t with TRetrieveFee | TErc20Estimate _ | TRefresh => true | _ => false end
  | ReCount _ => match t with TRetrieveCount _ | TRetrieveFinalizedCount => true | _ => false end
  | ReSigs l => match t with
                | TRetrieveSign _ batch => Nat.eqb (List.length l) (List.length batch)
                | _ => false
                end
  | ReSent => match t with TRetrieveSend _ => true | _ => false end
  | ReReceipts l => match t with
                    | TRetrieveReceipts h => Nat.eqb (List.length l) (List.length h)
                    | _ => false
                    end
  end.

(** The callback: the segment that runs when the answer is delivered *)
Definition resume (now : N) (t : Task) (r : Reply) (c : Core) : res (Core * Next) :=
  match t, r with
  | TMint j, ReLedger a => mint_reply now j a c
  | TMintFee j b, ReLedger _ => mint_record now j b c
  | TReimburse _ i q rest, ReLedger a => reimburse_reply now i q rest a c
  | TScrapeBlock n, ReBlock o => scrape_block_reply n o c
  | TScrapeLogs j, ReLogs a => scrape_logs_reply now j a c
  | TRetrieveFee, ReFees o => retrieve_fee_reply now o c
  | TRetrieveCount g, ReCount o => retrieve_count_reply now g o c
  | TRetrieveSign count batch, ReSigs l => retrieve_sign_reply keccak now count batch l c
  | TRetrieveSend _, ReSent => finalize_start c
  | TRetrieveFinalizedCount, ReCount o => retrieve_finalized_count_reply o c
  | TRetrieveReceipts h, ReReceipts l => retrieve_receipts_reply now h l c
  | TNativeFee j, ReLedger a => native_fee_reply now j a c
  | TNativeBurn j, ReLedger a => native_burn_reply now j a c
  | TNativeRefund caller _ _ e, ReLedger a => native_refund_reply caller e a c
  | TErc20Estimate j, ReFees o => erc20_estimate_reply now j o c
  | TErc20Fee j, ReLedger a => erc20_fee_reply now j a c
  | TErc20GasBurn j, ReLedger a => erc20_gas_burn_reply j a c
  | TErc20Burn j i, ReLedger a => erc20_burn_reply now j i a c
  | TErc20Refund caller _ _ i e, ReLedger a => erc20_refund_reply caller i e a c
  | TRefresh, ReFees o => Done ((fst (refresh_reply now o (fst c)), snd c), Finish OutTimer)
  | _, _ => Panic "answer of the wrong type"
  end.

(** Timers: main.rs 63-89 [setup_timers] (and the timers set by deposit.rs 206, 462,
    withdraw.rs 177, main.rs 271). Any of them may fire at any time. *)
Inductive Timer := TimerMint | TimerScrape | TimerRetrieve | TimerReimburse | TimerRefresh.
Definition timer_start (now : N) (k : Timer) (c : Core) : res (Core * Next) :=
  match k with
  | TimerMint => mint_start c
  | TimerScrape => scrape_start now c
  | TimerRetrieve => retrieve_start now c
  | TimerReimburse => reimburse_start c
  | TimerRefresh => refresh_task_start now c
  end.

(** Update calls *)
Inductive UserCall :=
| CallWithdrawNative (caller : Principal) (amount : N) (recipient : text)
| CallWithdrawErc20 (caller : Principal) (amount : N) (ledger : Principal) (recipient : text)
| CallAddToken (caller : Principal) (a : AddErc20Token)
| CallRequestScraping (block : N).
Definition call_start (now : N) (u : UserCall) (c : Core) : res (Core * Next) :=
  match u with
  | CallWithdrawNative p a r => withdraw_native_start now p a r c
  | CallWithdrawErc20 p a l r => withdraw_erc20_start now p a l r c
  | CallAddToken p a => add_erc20_token now p a c
  | CallRequestScraping b => request_scraping_logs now b c
  end.

(** A suspended function and, once it has arrived, the answer to its call *)
Record Flight := { fl_task : Task; fl_reply : option Reply }.

(** An executed ledger operation with its block index *)
Definition Op : Type := LedgerCall * N.

Record Sys := {
  sys_core : Core;
  sys_tasks : bmap N Flight;
  sys_next : N;
  sys_clock : N;
  (** the operations executed by all ledgers, oldest first *)
  sys_ops : list Op;
  (** history: the accepted update calls and what they returned; the [get_logs]
      queries that were processed *)
  sys_calls : list (N * UserCall);
  sys_outcomes : list (N * Outcome);
  sys_queries : list (Range * LogsReply)
}.

(** ** The ledgers' rules *)

Definition call_ledger (c : LedgerCall) : Principal :=
  match c with Transfer l _ _ _ => l | TransferFrom l _ _ _ _ => l end.
Definition call_amount (c : LedgerCall) : N :=
  match c with Transfer _ _ a _ => a | TransferFrom _ _ _ a _ => a end.
(** The minter's default account is the minting account of every ledger: a transfer
    from it mints, a transfer to it burns. *)
Definition account_eqb (a b : Account) : bool :=
  bytes_eqb (ac_owner a) (ac_owner b) &&
  match ac_subaccount a, ac_subaccount b with
  | Some x, Some y => bytes_eqb x y
  | None, None => true
  | _, _ => false
  end.
Definition is_burn (c : LedgerCall) : bool :=
  match c with
  | Transfer _ _ _ _ => false
  | TransferFrom _ _ to _ _ => account_eqb to (default_account self)
  end.
Definition is_mint (c : LedgerCall) : bool :=
  match c with Transfer _ _ _ _ => true | TransferFrom _ _ _ _ _ => false end.

Definition total (sel : LedgerCall -> bool) (ledger : Principal) (ops : list Op) : N :=
  fold_right (fun o acc =>
    if sel (fst o) && bytes_eqb (call_ledger (fst o)) ledger then call_amount (fst o) + acc else acc)
    0 ops.
Definition minted_total := total is_mint.
Definition burned_total := total is_burn.

(** A ledger numbers its blocks: an index is never given twice; it burns only tokens
    that exist. *)
Definition ledger_allows (ops : list Op) (c : LedgerCall) (block : N) : bool :=
  negb (existsb (fun o => bytes_eqb (call_ledger (fst o)) (call_ledger c) && (snd o =? block)) ops) &&
  (if is_burn c
   then call_amount c + burned_total (call_ledger c) ops <=? minted_total (call_ledger c) ops
   else true).

(** ** Transitions *)

Inductive Label :=
| LTimer (k : Timer) (now : N)
| LCall (u : UserCall) (now : N)
(** a ledger or provider answers the call of function [id] *)
| LAnswer (id : N) (r : Reply)
(** the answer is delivered; [trap]: the callback traps *)
| LDeliver (id : N) (trap : bool) (now : N)
| LUpgrade (a : option UpgradeArg) (now : N).

Definition with_core (c : Core) (now : N) (s : Sys) : Sys :=
  {| sys_core := c; sys_tasks := sys_tasks s; sys_next := sys_next s; sys_clock := now;
     sys_ops := sys_ops s; sys_calls := sys_calls s; sys_outcomes := sys_outcomes s;
     sys_queries := sys_queries s |}.
Definition with_tasks (t : bmap N Flight) (s : Sys) : Sys :=
  {| sys_core := sys_core s; sys_tasks := t; sys_next := sys_next s; sys_clock := sys_clock s;
     sys_ops := sys_ops s; sys_calls := sys_calls s; sys_outcomes := sys_outcomes s;
     sys_queries := sys_queries s |}.
Definition with_op (o : Op) (s : Sys) : Sys :=
  {| sys_core := sys_core s; sys_tasks := sys_tasks s; sys_next := sys_next s;
     sys_clock := sys_clock s; sys_ops := sys_ops s ++ [o]; sys_calls := sys_calls s;
     sys_outcomes := sys_outcomes s; sys_queries := sys_queries s |}.
Definition with_call (id : N) (u : UserCall) (s : Sys) : Sys :=
  {| sys_core := sys_core s; sys_tasks := sys_tasks s; sys_next := sys_next s;
     sys_clock := sys_clock s; sys_ops := sys_ops s; sys_calls := sys_calls s ++ [(id, u)];
     sys_outcomes := sys_outcomes s; sys_queries := sys_queries s |}.
Definition with_outcome (id : N) (o : Outcome) (s : Sys) : Sys :=
  {| sys_core := sys_core s; sys_tasks := sys_tasks s; sys_next := sys_next s;
     sys_clock := sys_clock s; sys_ops := sys_ops s; sys_calls := sys_calls s;
     sys_outcomes := sys_outcomes s ++ [(id, o)]; sys_queries := sys_queries s |}.
Definition with_queries (l : list (Range * LogsReply)) (s : Sys) : Sys :=
  {| sys_core := sys_core s; sys_tasks := sys_tasks s; sys_next := sys_next s;
     sys_clock := sys_clock s; sys_ops := sys_ops s; sys_calls := sys_calls s;
     sys_outcomes := sys_outcomes s; sys_queries := sys_queries s ++ l |}.
Definition bump_next (s : Sys) : Sys :=
  {| sys_core := sys_core s; sys_tasks := sys_tasks s; sys_next := sys_next s + 1;
     sys_clock := sys_clock s; sys_ops := sys_ops s; sys_calls := sys_calls s;
     sys_outcomes := sys_outcomes s; sys_queries := sys_queries s |}.

(** Install the continuation of function [id] *)
Definition install (id : N) (nx : Next) (s : Sys) : Sys :=
  match nx with
  | Await t => with_tasks (binsert id {| fl_task := t; fl_reply := None |} (sys_tasks s)) s
  | Finish o => with_outcome id o (with_tasks (bremove id (sys_tasks s)) s)
  end.

(** First segment of a new function *)
Definition start_task (now : N) (r : res (Core * Next)) (s : Sys) : Sys :=
  match r with
  | Done (c, nx) => bump_next (install (sys_next s) nx (with_core c now s))
  | Panic _ => bump_next (with_outcome (sys_next s) OutTrap (with_core (sys_core s) now s))
  end.

Definition task_query (t : Task) (r : Reply) : list (Range * LogsReply) :=
  match t, r with
  | TScrapeLogs j, ReLogs a => [(sj_current j, a)]
  | _, _ => []
  end.

(** A callback *)
Definition deliver (now : N) (id : N) (t : Task) (r : Reply) (trap : bool) (s : Sys) : Sys :=
  match (if trap then Panic "trap" else resume now t r (sys_core s)) with
  | Done (c, nx) => install id nx (with_queries (task_query t r) (with_core c now s))
  | Panic _ =>
      let c := match cleanup now t (sys_core s) with Done c => c | Panic _ => sys_core s end in
      install id (Finish OutTrap) (with_core c now s)
  end.

Definition step (s : Sys) (l : Label) : Sys :=
  match l with
  | LTimer k now =>
      if now <? sys_clock s then s else start_task now (timer_start now k (sys_core s)) s
  | LCall u now =>
      if now <? sys_clock s then s
      else start_task now (call_start now u (sys_core s)) (with_call (sys_next s) u s)
  | LAnswer id r =>
      match bget id (sys_tasks s) with
      | Some {| fl_task := t; fl_reply := None |} =>
          if reply_fits t r then
            let s' := with_tasks (binsert id {| fl_task := t; fl_reply := Some r |} (sys_tasks s)) s in
            match task_call t, r with
            | Some c, ReLedger (LedgerOk b) =>
                if ledger_allows (sys_ops s) c b then with_op (c, b) s' else s
            | _, _ => s'
            end
          else s
      | _ => s
      end
  | LDeliver id trap now =>
      if now <? sys_clock s then s
      else match bget id (sys_tasks s) with
           | Some {| fl_task := t; fl_reply := Some r |} => deliver now id t r trap s
           | _ => s
           end
  | LUpgrade a now =>
      if now <? sys_clock s then s
      else match sys_tasks s with
           | [] => match canister_upgrade now a (sys_core s) with
                   | Done c => with_core c now s
                   | Panic _ => s
                   end
           | _ => s
           end
  end.

Definition run (s : Sys) (ls : list Label) : Sys := fold_left step ls s.

(** The system right after installation: main.rs 91-121 *)
Definition sys_init (now : N) (a : InitArg) : res Sys :=
  c <- canister_init now a ;;
  Done {| sys_core := c; sys_tasks := []; sys_next := 0; sys_clock := now; sys_ops := [];
          sys_calls := []; sys_outcomes := []; sys_queries := [] |}.

(** Reachable configurations *)
Definition reachable (s : Sys) : Prop :=
  exists now a s0 ls, sys_init now a = Done s0 /\ s = run s0 ls.

End Sys.
