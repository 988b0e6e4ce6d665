(** * Upgrades of a canister that was not stopped (specification) *)

From Verif Require Import Base BMap MultiKeyMap Bytes Types Amount Tx CallData Network Hex
  Transactions State Audit Ranges Rlp Parser Memo Driver Sys SysSpec.

Section Open.
Variable self : Principal.
Variable keccak : list N -> Hash.

(** The canister waits for providers or for signatures only: no ledger call is outstanding and
    no answer of a ledger is on its way *)
Definition no_ledger_call (s : Sys) : Prop :=
  forall id fl, In (id, fl) (sys_tasks s) -> task_call self (fl_task fl) = None.

(** What an upgrade does to a running canister (main.rs 123-157, and the platform): the heap is
    lost and with it everything that waits for an answer, without any cleanup; the state is what
    the log gives. If the upgrade traps nothing changes. *)
Definition upgrade_running (a : option UpgradeArg) (now : N) (s : Sys) : Sys :=
  if now <? sys_clock s then s
  else match canister_upgrade now a (sys_core s) with
       | Done c => with_tasks [] (with_core c now s)
       | Panic _ => s
       end.

(** The two configurations differ only in what was said to callers *)
Definition same_but_outcomes (s s' : Sys) : Prop :=
  sys_core s' = sys_core s /\ sys_tasks s' = sys_tasks s /\ sys_next s' = sys_next s /\
  sys_clock s' = sys_clock s /\ sys_ops s' = sys_ops s /\ sys_calls s' = sys_calls s /\
  sys_queries s' = sys_queries s.

(** Runs in which the canister may be upgraded, stopped or not, whenever no ledger call is
    outstanding *)
Inductive reach_running (env : Sys -> Label -> Prop) : Sys -> Prop :=
| rr_init now a s : sys_init now a = Done s -> reach_running env s
| rr_step s l : reach_running env s -> env s l -> reach_running env (step self keccak s l)
| rr_upgrade s a now : reach_running env s -> env s (LUpgrade a now) -> no_ledger_call s ->
    reach_running env (upgrade_running a now s).

(** Providers fail to answer, or the message that gets the answer traps *)
Definition failing (l : Label) : Prop :=
  match l with
  | LAnswer _ (ReBlock None) | LAnswer _ (ReLogs LogsErr) | LAnswer _ (ReFees None)
  | LAnswer _ (ReCount None) | LAnswer _ ReSent => True
  | LAnswer _ (ReSigs l) => Forall (fun x => x = None) l
  | LAnswer _ (ReReceipts l) => Forall (fun x => x = ReceiptErr) l
  | LDeliver _ true _ => True
  | _ => False
  end.

(** An assumption on the environment that does not rule out failures, and for the other labels
    looks neither at the work in progress nor at what was said to callers *)
Definition tolerant (env : Sys -> Label -> Prop) : Prop :=
  (forall s l, failing l -> env s l) /\
  (forall s s' a now, sys_log s' = sys_log s -> withdrawals (sys_state s') = withdrawals (sys_state s) ->
     env s (LUpgrade a now) -> env s' (LUpgrade a now)) /\
  (forall s s' l, same_but_outcomes s s' -> env s l -> env s' l).

End Open.
