(** * TimeSpec: times in the event log (specification) *)

From Coq Require Import Sorting.Sorted.
From Verif Require Import Base BMap MultiKeyMap Bytes Types Amount Tx CallData Network Hex
  Transactions State Audit Ranges Rlp Parser Memo Driver Sys SysSpec WithdrawSpec.

(** No event bears an earlier time than an event before it *)
Definition chronological (log : list Event) : Prop :=
  StronglySorted (fun e e' => ev_timestamp e <= ev_timestamp e') log.
