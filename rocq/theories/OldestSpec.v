(** * OldestSpec: withdrawals that are not complete (specification) *)

From Verif Require Import Base BMap MultiKeyMap Bytes Types Amount Tx CallData Network Hex
  Transactions State Audit Ranges Rlp Parser Memo Driver Sys SysSpec WithdrawSpec.

(** Accepted, and no receipt recorded *)
Definition incomplete (h : list EventType) (r : WithdrawalRequest) : Prop :=
  In r (accepted h) /\ ~ In (wr_burn_index r) (map fst (finalizations h)).
