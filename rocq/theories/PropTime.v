(** * C88: times in the event log *)

From Coq Require Import Sorting.Sorted.
From Verif Require Import Base BMap MultiKeyMap Bytes Types Amount Tx CallData Network Hex
  Transactions State Audit Ranges Rlp Parser Memo Driver Sys SysSpec SysFacts WithdrawSpec TimeSpec TimeFacts Scenario.

(** The log is in order of time and nothing in it is dated in the future. *)
Theorem C88_chronological :
  forall self keccak env s, reach self keccak env s ->
    chronological (sys_log s) /\ forall e, In e (sys_log s) -> ev_timestamp e <= sys_clock s.
Proof.
  intros self keccak env s Hr. pose proof (timely_reach self keccak env s Hr) as H.
  split; [apply (tm_sorted _ H)|apply (tm_clock _ H)].
Qed.
Print Assumptions C88_chronological.

(** Every step leaves what was recorded in place and gives what it adds the time of the step. *)
Theorem C88_time_of_the_step :
  forall self keccak s l, let s' := step self keccak s l in
    sys_clock s <= sys_clock s' /\
    exists es, sys_log s' = sys_log s ++ es /\ forall e, In e es -> ev_timestamp e = sys_clock s'.
Proof. intros self keccak s l. exact (trans_times self keccak (fun _ _ => True) s l _ (step_trans self keccak s l)). Qed.
Print Assumptions C88_time_of_the_step.

(** A withdrawal is not dated after the event that accepts it. *)
Theorem C88_accepted_after_its_date :
  forall self keccak env s e r t, reach self keccak env s -> In e (sys_log s) ->
    In r (accepted_by (ev_payload e)) -> wr_created_at r = Some t -> t <= ev_timestamp e.
Proof. intros self keccak env s e r t Hr He. exact (tm_dated _ (timely_reach self keccak env s Hr) e He r t). Qed.
Print Assumptions C88_accepted_after_its_date.

(** The times of a history with two withdrawals and an upgrade; the withdrawals are dated
    before the events that accept them. *)
Example C88_witness :
  match run0 (up_to_sent ++ finalize0 ++ [LUpgrade None 70]) with
  | Done s => (map ev_timestamp (sys_log s),
               flat_map (fun e => map (fun r => (wr_created_at r, ev_timestamp e)) (accepted_by (ev_payload e))) (sys_log s))
  | _ => ([], [])
  end = ([1; 10; 22; 22; 32; 33; 42; 54; 61; 61; 62; 62; 65; 70], [(Some 41, 42); (Some 52, 54)]).
Proof. vm_compute. reflexivity. Qed.
