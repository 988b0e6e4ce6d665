(** * Specification of C64 and C65: what is owed can always still be paid. *)

From Verif Require Import Base BMap MultiKeyMap Bytes Types Amount State Audit Memo Driver Sys SysSpec.

(** Timers fire, the ledgers execute what they are asked, and no callback is made to trap. *)
Definition accepting (l : Label) : Prop :=
  match l with
  | LTimer _ _ => True
  | LAnswer _ (ReLedger (LedgerOk _)) => True
  | LDeliver _ false _ => True
  | _ => False
  end.

(** The ledgers can number [n] further blocks with 64-bit integers. *)
Definition room (s : Sys) (n : N) : Prop :=
  exists next, (forall c b, In (c, b) (sys_ops s) -> b < next) /\ next + n <= 2 ^ 64.
