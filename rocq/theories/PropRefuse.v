(** * C05: the fate of an entry is recorded because of an answer, and with the true reason *)

From Verif Require Import Base BMap MultiKeyMap Bytes Types Amount Tx CallData Network Hex
  Transactions State Audit Ranges Rlp Parser Memo Driver Sys SysSpec WithdrawSpec DepositSpec
  ParserSpec RefuseSpec ParserFacts RefuseFacts Scenario PropGuards.

(** An entry that is refused has the defect that is given as the reason. *)
Theorem C05_reason_true :
  forall e src x, wire e -> parse_log e = Done (RErr (InvalidEventSource src x)) ->
    (exists block, mined e block (fst src) (snd src)) /\ defect x e.
Proof. exact refused_defect. Qed.
Print Assumptions C05_reason_true.

(** The recorded text tells the reasons apart. *)
Theorem C05_reasons_differ :
  forall x y, error_text x = error_text y ->
    x = y \/ exists w w', x = InvalidPrincipal w /\ y = InvalidPrincipal w'.
Proof. intros [w|[]] [w'|[]] H; try (left; reflexivity); try (vm_compute in H; discriminate H). right. eauto. Qed.
Print Assumptions C05_reasons_differ.

(** Whenever a deposit is on record as refused, an answer of the providers held an entry with this
    source and this defect. *)
Theorem C05_refused_in_answer :
  forall self keccak env s src reason, reach self keccak env s ->
    In (EvInvalidDeposit src reason) (history (sys_log s)) ->
    exists range logs e x, In (range, LogsOk logs) (sys_queries s) /\ In e logs /\ reason = error_text x /\
      (wire e -> (exists block, mined e block (fst src) (snd src)) /\ defect x e).
Proof.
  intros self keccak env s src reason Hr Hin.
  destruct (refused_answer self keccak env s src reason Hr Hin) as (range & logs & e & x & H1 & H2 & H3 & H4).
  exists range, logs, e, x. split; [exact H1|]. split; [exact H2|]. split; [exact H4|]. intros Hw. exact (refused_defect e src x Hw H3).
Qed.
Print Assumptions C05_refused_in_answer.

(** Whenever a deposit is on record as accepted, an answer of the providers held an entry that
    says just this. *)
Theorem C05_accepted_in_answer :
  forall self keccak env s d, reach self keccak env s -> deposit_accepted (sys_log s) d ->
    exists range logs e, In (range, LogsOk logs) (sys_queries s) /\ In e logs /\
      (wire e -> exists x block tx index, mined e block tx index /\ le_removed e = false /\ encodes e x /\
         d = deposit_of x block tx index).
Proof.
  intros self keccak env s d Hr Hd. destruct (accepted_answer self keccak env s d Hr Hd) as (range & logs & e & H1 & H2 & H3).
  exists range, logs, e. split; [exact H1|]. split; [exact H2|]. intros Hw. apply (parse_log_ok e d Hw). exact H3.
Qed.
Print Assumptions C05_accepted_in_answer.

(** One answer with a good entry and with entries that have four of the defects *)
Definition good5 : LogEntry := deposit_log 31 1 103 187 5000 221 user0.
Definition bad5 (h : Hash) (removed : bool) (data : list N) (token principal : list N) : LogEntry :=
  {| le_address := 170; le_topics := [DEPOSIT_TOPIC; token; word 5000; principal]; le_data := data;
     le_block_number := Some 103; le_transaction_hash := Some h; le_transaction_index := Some 0; le_block_hash := Some 1;
     le_log_index := Some 1; le_removed := removed |}.
Definition answer5 : list LogEntry :=
  [good5; bad5 32 true (word 221 ++ word 0) (word 187) (principal_word user0);
   bad5 33 false (word 221) (word 187) (principal_word user0);
   bad5 34 false (word 221 ++ word 0) (word (2 ^ 200)) (principal_word user0);
   bad5 35 false (word 221 ++ word 0) (word 187) (principal_word [4])].
Lemma wire_check e :
  forallb (fun w => Nat.eqb (List.length w) 32 && forallb (fun b => b <? 256) w) (le_topics e) && forallb (fun b => b <? 256) (le_data e) = true ->
  wire e.
Proof.
  assert (B : forall l, forallb (fun b => b <? 256) l = true -> byte_list l).
  { intros l H. rewrite forallb_forall in H. apply Forall_forall. intros b Hb. apply N.ltb_lt. exact (H b Hb). }
  intros H. apply andb_prop in H as [H1 H2]. split; [|exact (B _ H2)].
  rewrite forallb_forall in H1. apply Forall_forall. intros w Hw. specialize (H1 w Hw). apply andb_prop in H1 as [L H1].
  apply Nat.eqb_eq in L. split; [exact L|exact (B _ H1)].
Qed.
Example C05_reason_witness :
  (forall e, In e answer5 -> wire e) /\
  exists s, reach self0 keccak0 any_env s /\ In ((101, 105), LogsOk answer5) (sys_queries s) /\
    skipn 2 (history (sys_log s)) =
      [EvAcceptedErc20Deposit {| ee_transaction_hash := 31; ee_block_number := 103; ee_log_index := 1; ee_from_address := 221;
         ee_value := 5000; ee_principal := user0; ee_erc20_contract_address := 187; ee_subaccount := None |};
       EvInvalidDeposit (32, 1) (error_text (InvalidEvent CauseRemoved));
       EvInvalidDeposit (33, 1) (error_text (InvalidEvent CauseData));
       EvInvalidDeposit (34, 1) (error_text (InvalidEvent CauseAddress));
       EvInvalidDeposit (35, 1) (error_text (InvalidPrincipal (principal_word [4])))].
Proof.
  split.
  { intros e He. apply wire_check. revert e He. apply forallb_forall. vm_compute. reflexivity. }
  destruct (run0 (register0 ++ LTimer TimerScrape 20 :: ans 1 (ReBlock (Some 105)) 21 ++ ans 1 (ReLogs (LogsOk answer5)) 22))
    as [s|] eqn:E; [|vm_compute in E; discriminate E].
  exists s. split; [eapply any_reach; exact E|]. vm_compute in E. injection E as <-.
  split; [left; vm_compute; reflexivity|vm_compute; reflexivity].
Qed.
