(** * Specification of C69, C70: requests for an early look, and deposits found again *)

From Verif Require Import Base BMap MultiKeyMap Types Amount State Audit Parser Driver Sys SysSpec
  DepositSpec ScrapeSpec TokenSpec ParserSpec.

(** The minter has a record of this log of the chain: as a deposit waiting to be minted, as one
    that was minted, or as one that was rejected. *)
Definition known (s : State) (src : EventSource) : Prop :=
  (exists e, waiting s src e) \/ (exists m, minted s src m) \/ (exists r, rejected s src r).

Definition native_part (d : ReceivedDepositEvent) : N :=
  match d with DepNative x => ne_value x | DepErc20 _ => 0 end.
Definition erc20_part (c : Address) (d : ReceivedDepositEvent) : N :=
  match d with
  | DepNative _ => 0
  | DepErc20 x => if ee_erc20_contract_address x =? c then ee_value x else 0
  end.
Definition total (f : ReceivedDepositEvent -> N) (ds : list ReceivedDepositEvent) : N :=
  fold_right (fun d n => f d + n) 0 ds.

(** The logs that were refused, with the place they come from *)
Definition refused_at (errors : list DepositError) : list EventSource :=
  flat_map (fun e => match e with InvalidEventSource src _ => [src] | PendingLogEntry => [] end) errors.

(** When the deposits [ds] and the refused logs [bad] of one answer can be recorded: no log
    occurs twice, the minter knows none of the deposits, their tokens are registered, the
    refused logs are not deposits it accepted, and the balances stay below 2^256. *)
Record recordable (s : State) (ds : list ReceivedDepositEvent) (bad : list EventSource) : Prop := {
  rc_once : NoDup (map dep_source ds);
  rc_new : forall d, In d ds -> ~ known s (dep_source d);
  rc_token : forall x, In (DepErc20 x) ds ->
    exists ledger symbol, listed s ledger (ee_erc20_contract_address x) symbol;
  rc_bad : forall src, In src bad ->
    (forall e, ~ waiting s src e) /\ (forall m, ~ minted s src m) /\ ~ In src (map dep_source ds);
  rc_native : forall x, In (DepNative x) ds ->
    nb_balance (native_balance s) + total native_part ds < 2 ^ 256;
  rc_erc20 : forall x, In (DepErc20 x) ds ->
    erc20_balance_of (ee_erc20_contract_address x) (erc20_balances s) +
      total (erc20_part (ee_erc20_contract_address x)) ds < 2 ^ 256
}.

(** ** A provider that tells the truth *)

(** The place of a log entry on the chain *)
Definition place (e : LogEntry) : option EventSource :=
  match le_transaction_hash e, le_log_index e with Some h, Some i => Some (h, i) | _, _ => None end.
Definition places (l : list LogEntry) : list EventSource :=
  flat_map (fun e => match place e with Some src => [src] | None => [] end) l.

(** [block_of] says in which block of the chain each log is. The answer [logs] to a query for
    the blocks [r] holds only logs of these blocks, and each at most once. *)
Definition truthful (block_of : EventSource -> N) (r : Ranges.Range) (logs : list LogEntry) : Prop :=
  NoDup (places logs) /\
  forall src, In src (places logs) -> fst r <= block_of src <= snd r.

(** Answers are truthful and well formed, block numbers are below 2^256 - 1, and the operator
    does not set the position. *)
Definition honest_chain (block_of : EventSource -> N) (s : Sys) (l : Label) : Prop :=
  kept_blocks s l /\
  match l with
  | LAnswer id (ReLogs (LogsOk logs)) =>
      (forall x, In x logs -> wire x) /\
      forall j r, bget id (sys_tasks s) = Some {| fl_task := TScrapeLogs j; fl_reply := r |} ->
        truthful block_of (sj_current j) logs
  | _ => True
  end.

(** ** Requests for an early look *)

(** No upgrade, and providers report blocks that are not below the distance kept to the head
    of the chain. *)
Definition high_blocks (s : Sys) (l : Label) : Prop :=
  match l with
  | LAnswer _ (ReBlock (Some n)) => head_margin (evm_network (sys_state s)) <= n
  | LUpgrade _ _ => False
  | _ => True
  end.
