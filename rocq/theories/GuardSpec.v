(** * Specification of C27 and C28: calls in flight and running timer tasks. *)

From Verif Require Import Base BMap Types Amount State Driver Sys SysSpec.

(** The user who makes a withdrawal *)
Definition withdrawing (u : UserCall) : option Principal :=
  match u with
  | CallWithdrawNative p _ _ => Some p
  | CallWithdrawErc20 p _ _ _ => Some p
  | _ => None
  end.

(** Call [id], a withdrawal made by [p], has been accepted and has not returned yet. *)
Definition in_flight (s : Sys) (id : N) (p : Principal) : Prop :=
  (exists u, In (id, u) (sys_calls s) /\ withdrawing u = Some p) /\
  (forall o, ~ In (id, o) (sys_outcomes s)).

(** What a suspended function is doing *)
Inductive Activity := Minting | Scraping | Reimbursing | Retrieving | Refreshing.
Definition doing (t : Task) (a : Activity) : Prop :=
  match a with
  | Minting => (exists j, t = TMint j) \/ (exists j b, t = TMintFee j b)
  | Scraping => (exists n, t = TScrapeBlock n) \/ (exists j, t = TScrapeLogs j)
  | Reimbursing => exists l i r rest, t = TReimburse l i r rest
  | Retrieving => t = TRetrieveFee \/ (exists g, t = TRetrieveCount g) \/
      (exists c b, t = TRetrieveSign c b) \/ (exists l, t = TRetrieveSend l) \/
      t = TRetrieveFinalizedCount \/ (exists h, t = TRetrieveReceipts h)
  | Refreshing => t = TRefresh \/ t = TRetrieveFee \/ (exists j, t = TErc20Estimate j)
  end.
(** Function [id] is suspended and doing [a] *)
Definition running_activity (s : Sys) (id : N) (a : Activity) : Prop :=
  exists t r, bget id (sys_tasks s) = Some {| fl_task := t; fl_reply := r |} /\ doing t a.

(** The call that starts in [s] is refused: it traps and changes nothing. *)
Definition refused (s s' : Sys) : Prop :=
  In (sys_next s, OutTrap) (sys_outcomes s') /\ sys_core s' = sys_core s /\
  sys_tasks s' = sys_tasks s /\ sys_ops s' = sys_ops s.

(** The activity a timer starts *)
Definition starts (k : Timer) : Activity :=
  match k with
  | TimerMint => Minting | TimerScrape => Scraping | TimerRetrieve => Retrieving
  | TimerReimburse => Reimbursing | TimerRefresh => Refreshing
  end.

(** The fee estimate is less than thirty seconds old (times are 64-bit nanoseconds). *)
Definition fresh_estimate (now : N) (st : State) : Prop :=
  exists ts g, last_transaction_price_estimate st = Some (ts, g) /\
    now < N.min (ts + 30 * 10 ^ 9) (2 ^ 64 - 1).
