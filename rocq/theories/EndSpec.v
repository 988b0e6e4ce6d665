(** * Specification of C72: every call and every round of work comes to an end *)

From Verif Require Import Base BMap Types Transactions State Audit Driver Sys SysSpec.

(** The answers that a suspended function can still receive before it ends, at the most; for
    scraping see C08. *)
Definition most_answers (t : Task) : N :=
  match t with
  (* two transfers for each deposit *)
  | TMint j => 2 + 2 * N.of_nat (List.length (mj_rest j))
  | TMintFee j _ => 1 + 2 * N.of_nat (List.length (mj_rest j))
  (* one transfer for each reimbursement *)
  | TReimburse _ _ _ rest => 1 + N.of_nat (List.length rest)
  (* fees, transaction count, signatures, sending, finalized count, receipts *)
  | TRetrieveFee => 6
  | TRetrieveCount _ => 5
  | TRetrieveSign _ _ => 4
  | TRetrieveSend _ => 3
  | TRetrieveFinalizedCount => 2
  | TRetrieveReceipts _ => 1
  (* fee, burn, refund *)
  | TNativeFee _ => 3
  | TNativeBurn _ => 2
  | TNativeRefund _ _ _ _ => 1
  (* estimate, fee, burn of the gas fee, burn of the tokens, refund *)
  | TErc20Estimate _ => 5
  | TErc20Fee _ => 4
  | TErc20GasBurn _ => 3
  | TErc20Burn _ _ => 2
  | TErc20Refund _ _ _ _ _ => 1
  | TRefresh => 1
  | TScrapeBlock _ | TScrapeLogs _ => 0
  end.
Definition is_scrape (t : Task) : bool :=
  match t with TScrapeBlock _ | TScrapeLogs _ => true | _ => false end.

(** The step [l] hands an answer to function [id] *)
Definition hands (s : Sys) (id : N) (l : Label) : bool :=
  match l with
  | LDeliver i _ now =>
      (i =? id) && (sys_clock s <=? now) &&
      match bget id (sys_tasks s) with Some {| fl_task := _; fl_reply := Some _ |} => true | _ => false end
  | _ => false
  end.
(** The answers that function [id] receives in the run [ls] *)
Fixpoint received (self : Principal) (keccak : list N -> Hash) (s : Sys) (id : N) (ls : list Label) : N :=
  match ls with
  | [] => 0
  | l :: ls' => (if hands s id l then 1 else 0) + received self keccak (step self keccak s l) id ls'
  end.

(** Function [id] has ended, with exactly one result *)
Definition ended (s : Sys) (id : N) : Prop :=
  bget id (sys_tasks s) = None /\ exists o, forall o', In (id, o') (sys_outcomes s) <-> o' = o.
Definition suspended (s : Sys) (id : N) : Prop := bget id (sys_tasks s) <> None.

(** An answer for function [id], or its delivery *)
Definition concerns (id : N) (l : Label) : Prop :=
  match l with LAnswer i _ | LDeliver i false _ => i = id | _ => False end.

(** The answers that a call waits for, at the most *)
Definition call_answers (u : UserCall) : N :=
  match u with
  | CallWithdrawNative _ _ _ => 3
  | CallWithdrawErc20 _ _ _ _ => 5
  | CallAddToken _ _ | CallRequestScraping _ => 0
  end.
(** The answers that a round of a timer other than the one for scraping waits for: two for
    each deposit that waits to be minted, one for each reimbursement that is owed *)
Definition round_answers (k : Timer) (s : State) : option N :=
  match k with
  | TimerMint => Some (2 * N.of_nat (List.length (events_to_mint_list s)))
  | TimerReimburse => Some (N.of_nat (List.length (reimb_requests (withdrawals s))))
  | TimerRetrieve => Some 6
  | TimerRefresh => Some 1
  | TimerScrape => None
  end.
