(** * C05, C06: deposit logs; C38: tokens; C52: the log filter *)

From Verif Require Import Base BMap MultiKeyMap Bytes Types Amount CallData Hex Network Transactions State Audit
  Parser Driver Sys SysSpec ParserSpec DepositSpec ParserFacts TokenSpec TokenFacts Scenario PropGuards.

(** ** C05 *)

(** A log is parsed into a deposit iff it is mined, not removed and well formed, and the
    deposit is then the one the helper contract emitted. *)
Theorem C05_parses_exactly :
  forall e d, wire e ->
    (parse_log e = Done (ROk d) <->
     exists x block tx index, mined e block tx index /\ le_removed e = false /\ encodes e x /\
       d = deposit_of x block tx index).
Proof. exact parse_log_ok. Qed.
Print Assumptions C05_parses_exactly.
(** There is only one way to read an entry. *)
Theorem C05_unambiguous :
  forall e, (forall x y, encodes e x -> encodes e y -> x = y) /\
    (forall b h i b' h' i', mined e b h i -> mined e b' h' i' -> b = b' /\ h = h' /\ i = i').
Proof. intros e. split; [exact (encodes_fun e)|exact (mined_fun e)]. Qed.
Print Assumptions C05_unambiguous.
(** Parsing never panics. An entry that is not mined is reported as pending, every other
    failure carries the source of the entry. *)
Theorem C05_errors :
  forall e,
    (forall b h i, ~ mined e b h i) /\ parse_log e = Done (RErr PendingLogEntry) \/
    (exists b h i, mined e b h i /\
       ((exists d, parse_log e = Done (ROk d)) \/
        exists x, parse_log e = Done (RErr (InvalidEventSource (h, i) x)))).
Proof. exact parse_log_err. Qed.
Print Assumptions C05_errors.
(** A batch is parsed entry by entry and nothing is dropped. *)
Theorem C05_batch :
  forall l, exists deposits errors, parse_all_logs l = Done (deposits, errors) /\
    (forall d, In d deposits <-> exists e, In e l /\ parse_log e = Done (ROk d)) /\
    (forall x, In x errors <-> exists e, In e l /\ parse_log e = Done (RErr x)) /\
    (List.length deposits + List.length errors = List.length l)%nat.
Proof.
  intros l. destruct (parse_all_total l) as ([ok errs] & H). exists ok, errs. split; [exact H|].
  exact (parse_all_spec l ok errs H).
Qed.
Print Assumptions C05_batch.

Definition log5 (sub : list N) : LogEntry :=
  {| le_address := 170; le_topics := [DEPOSIT_TOPIC; word 187; word 5000; principal_word user0];
     le_data := word 221 ++ sub; le_block_number := Some 104; le_transaction_hash := Some 22;
     le_transaction_index := Some 0; le_block_hash := Some 1; le_log_index := Some 2; le_removed := false |}.
Example C05_witness :
  let x := {| dl_from := 221; dl_token := 187; dl_amount := 5000; dl_principal := user0; dl_subaccount := 77 |} in
  wire (log5 (word 77)) /\ mined (log5 (word 77)) 104 22 2 /\ encodes (log5 (word 77)) x /\
  deposit_of x 104 22 2 =
    DepErc20 {| ee_transaction_hash := 22; ee_block_number := 104; ee_log_index := 2; ee_from_address := 221;
                ee_value := 5000; ee_principal := user0; ee_erc20_contract_address := 187;
                ee_subaccount := Some 77 |} /\
  parse_log (log5 (77 :: word 0)) = Done (RErr (InvalidEventSource (22, 2) (InvalidEvent CauseData))).
Proof.
  assert (W : forall n, n < 2 ^ 256 -> num_word n (word n)).
  { intros n Hn. split; [apply be_bytes_length|]. split; [apply be_bytes_byte_list|].
    apply of_be_be_bytes_small. replace (256 ^ N.of_nat 32) with (2 ^ 256) by (vm_compute; reflexivity). exact Hn. }
  split; [|split; [|split; [|split]]].
  - split; [|apply Forall_app; split; apply be_bytes_byte_list].
    repeat (constructor; [split; [vm_compute; reflexivity|
      repeat first [apply Forall_nil | apply Forall_cons; [vm_compute; reflexivity|]]]|]). constructor.
  - repeat split; discriminate.
  - split; [reflexivity|]. split; [reflexivity|]. split; [split; [cbn; lia|discriminate]|]. split.
    + exists (word 187), (word 5000), (principal_word user0). split; [reflexivity|].
      split; [apply W; reflexivity|]. split; [apply W; reflexivity|]. exists 29%nat. reflexivity.
    + exists (word 221), (word 77). split; [reflexivity|]. split; apply W; reflexivity.
  - reflexivity.
  - vm_compute. reflexivity.
Qed.

(** The contract that emitted an entry is not looked at: a provider (or a filter that does not
    work) that returns the log of another contract has the minter accept a deposit that the
    helper contract never saw. *)
Definition foreign5 : LogEntry :=
  {| le_address := 999; le_topics := [DEPOSIT_TOPIC; word 0; word 5000; principal_word user0];
     le_data := word 221 ++ word 0; le_block_number := Some 104; le_transaction_hash := Some 22;
     le_transaction_index := Some 0; le_block_hash := Some 1; le_log_index := Some 2; le_removed := false |}.
Theorem C05_other_contract_refuted :
  exists self keccak s id j now, reach self keccak any_env s /\
    bget id (sys_tasks s) =
      Some {| fl_task := TScrapeLogs j; fl_reply := Some (ReLogs (LogsOk [foreign5])) |} /\
    sys_clock s <= now /\ helper_contract_address (sys_state s) = Some 170 /\ le_address foreign5 = 999 /\
    exists d, waiting (sys_state (step self keccak s (LDeliver id false now))) (22, 2) (DepNative d) /\
      ne_value d = 5000 /\ ne_principal d = user0.
Proof.
  destruct (run0 (register0 ++ LTimer TimerScrape 20 :: ans 1 (ReBlock (Some 105)) 21 ++
    [LAnswer 1 (ReLogs (LogsOk [foreign5]))])) as [s|] eqn:E; [|vm_compute in E; discriminate].
  assert (Hr : reach self0 keccak0 any_env s) by (eapply any_reach; exact E).
  vm_compute in E. injection E as <-. exists self0, keccak0. eexists. exists 1. eexists. exists 22.
  split; [exact Hr|]. split; [vm_compute; reflexivity|]. split; [vm_compute; discriminate|].
  split; [vm_compute; reflexivity|]. split; [reflexivity|]. eexists.
  split; [vm_compute; reflexivity|]. split; vm_compute; reflexivity.
Qed.
Print Assumptions C05_other_contract_refuted.

(** ** C06 *)

(** A byte string of at most 32 bytes decodes to [p] iff it holds [p] (length, bytes, zeros)
    and [p] has 1 to 29 bytes and is not anonymous. *)
Theorem C06_exact :
  forall w p, parse_principal_from_slice w = Done (Some p) <->
    (List.length w <= 32)%nat /\ owner_principal p /\ holds_principal w p.
Proof. exact parse_principal_iff. Qed.
Print Assumptions C06_exact.
Theorem C06_never_panics : forall w, exists o, parse_principal_from_slice w = Done o.
Proof. exact parse_principal_total. Qed.
Print Assumptions C06_never_panics.
Theorem C06_unambiguous : forall w p q, holds_principal w p -> holds_principal w q -> p = q.
Proof. exact holds_principal_fun. Qed.
Print Assumptions C06_unambiguous.
Example C06_witness :
  owner_principal user0 /\ holds_principal (principal_word user0) user0 /\
  (List.length (principal_word user0) <= 32)%nat /\
  parse_principal_from_slice (principal_word [4]) = Done None /\
  parse_principal_from_slice (word 0) = Done None /\
  parse_principal_from_slice (2 :: 9 :: 9 :: 1 :: repeat 0 28) = Done None.
Proof.
  split; [split; [cbn; lia|discriminate]|]. split; [exists 29%nat; reflexivity|].
  split; [cbn; lia|]. vm_compute. auto.
Qed.

(** ** C38 *)

(** The list of tokens can always be read; ledger, contract and symbol are unique in it. *)
Theorem C38_unique :
  forall self keccak s, reach self keccak any_env s ->
    (exists l, supported_erc20_tokens (sys_state s) = Done l) /\
    forall l1 c1 y1 l2 c2 y2,
      listed (sys_state s) l1 c1 y1 -> listed (sys_state s) l2 c2 y2 ->
      l1 = l2 \/ c1 = c2 \/ y1 = y2 -> l1 = l2 /\ c1 = c2 /\ y1 = y2.
Proof.
  intros self keccak s H. split; [exact (listed_query self keccak any_env s H)|].
  intros l1 c1 y1 l2 c2 y2. exact (listed_unique self keccak any_env s l1 c1 y1 l2 c2 y2 H).
Qed.
Print Assumptions C38_unique.
(** A token appears only by a call of the manager, which names a token of the minter's chain
    that clashes with none. *)
Theorem C38_only_manager :
  forall self keccak s, reach self keccak any_env s ->
    forall label l c y, listed (sys_state (step self keccak s label)) l c y ->
      listed (sys_state s) l c y \/
      exists p a now, label = LCall (CallAddToken p a) now /\
        ledger_suite_manager_id (sys_state s) = Some p /\
        denotes (sys_state s) a l c y /\ ~ clashes (sys_state s) l c y.
Proof. intros self keccak s H label l c y. exact (proj2 (step_listed self keccak any_env s label l c y H)). Qed.
Print Assumptions C38_only_manager.
(** Such a call is accepted, any other is refused without effect. *)
Theorem C38_accepted :
  forall self keccak s, reach self keccak any_env s ->
    forall p a now l c y, sys_clock s <= now -> ledger_suite_manager_id (sys_state s) = Some p ->
      denotes (sys_state s) a l c y -> ~ clashes (sys_state s) l c y ->
      let s' := step self keccak s (LCall (CallAddToken p a) now) in
      listed (sys_state s') l c y /\ In (sys_next s, OutAdded) (sys_outcomes s').
Proof. intros self keccak s H p a now l c y. exact (token_accepted self keccak any_env s p a now l c y H). Qed.
Print Assumptions C38_accepted.
Theorem C38_refused :
  forall self keccak s, reach self keccak any_env s ->
    forall p a now,
      ledger_suite_manager_id (sys_state s) <> Some p \/
      (forall l c y, denotes (sys_state s) a l c y -> clashes (sys_state s) l c y) ->
      sys_core (step self keccak s (LCall (CallAddToken p a) now)) = sys_core s.
Proof. intros self keccak s H p a now. exact (token_refused self keccak any_env s p a now H). Qed.
Print Assumptions C38_refused.
(** A token stays as it is. *)
Theorem C38_forever :
  forall self keccak s, reach self keccak any_env s ->
    forall ls l c y, listed (sys_state s) l c y -> listed (sys_state (run self keccak s ls)) l c y.
Proof. intros self keccak s H ls l c y. exact (listed_forever self keccak s ls l c y H). Qed.
Print Assumptions C38_forever.

Definition token1 : AddErc20Token :=
  {| at_chain_id := 11155111; at_address := payee0; at_symbol := text_of "icDAI"; at_ledger_id := [6] |}.
Example C38_witness :
  exists s, reach self0 keccak0 any_env s /\ listed (sys_state s) token_ledger0 187 (text_of "icUSDC") /\
    ledger_suite_manager_id (sys_state s) = Some manager0 /\
    denotes (sys_state s) token1 [6] 204 (text_of "icDAI") /\
    ~ clashes (sys_state s) [6] 204 (text_of "icDAI") /\
    clashes (sys_state s) [6] 204 (text_of "icUSDC").
Proof.
  destruct (run0 register0) as [s|] eqn:E; [|vm_compute in E; discriminate].
  exists s. split; [eapply any_reach; exact E|]. vm_compute in E. injection E as <-.
  split; [eexists; split; [vm_compute; reflexivity|left; reflexivity]|]. split; [reflexivity|].
  split; [|split].
  - split; [reflexivity|]. split; [vm_compute; reflexivity|]. split; [reflexivity|]. split; [cbn; lia|].
    split; [|reflexivity]. repeat first [apply Forall_nil | apply Forall_cons; [vm_compute; reflexivity|]].
  - intros (l & c & sy & (ll & Hl & Hi) & Hc). vm_compute in Hl. injection Hl as <-.
    destruct Hi as [Hi|[]]. injection Hi as <- <- <-. destruct Hc as [Hc|[Hc|Hc]]; vm_compute in Hc; discriminate.
  - do 3 eexists. split; [eexists; split; [vm_compute; reflexivity|left; reflexivity]|]. auto.
Qed.

(** ** C52 *)

(** The full statement is false: with one registered token the filter used for scraping
    does not match native deposits. *)
Theorem C52_native_missed_refuted :
  exists self keccak s sc e x, reach self keccak any_env s /\ next_scrape (sys_state s) = Done sc /\
    encodes e x /\ dl_token x = 0 /\ ~ topics_match (sc_topics sc) (le_topics e).
Proof.
  destruct (run0 register0) as [s|] eqn:E; [|vm_compute in E; discriminate].
  exists self0, keccak0, s. do 2 eexists.
  exists {| dl_from := 221; dl_token := 0; dl_amount := 5000; dl_principal := user0; dl_subaccount := 0 |}.
  split; [eapply any_reach; exact E|]. vm_compute in E. injection E as <-.
  split; [vm_compute; reflexivity|].
  assert (W : forall n, n < 2 ^ 256 -> num_word n (word n)).
  { intros n Hn. split; [apply be_bytes_length|]. split; [apply be_bytes_byte_list|].
    apply of_be_be_bytes_small. replace (256 ^ N.of_nat 32) with (2 ^ 256) by (vm_compute; reflexivity). exact Hn. }
  split; [|split; [reflexivity|]].
  - instantiate (1 := deposit_log 11 1 103 0 5000 221 user0).
    split; [reflexivity|]. split; [reflexivity|]. split; [split; [cbn; lia|discriminate]|]. split.
    + exists (word 0), (word 5000), (principal_word user0). split; [reflexivity|].
      split; [apply W; reflexivity|]. split; [apply W; reflexivity|]. exists 29%nat. reflexivity.
    + exists (word 221), (word 0). split; [reflexivity|]. split; apply W; reflexivity.
  - vm_compute. intros (_ & [H|[H|[]]] & _); discriminate.
Qed.
Print Assumptions C52_native_missed_refuted.
(** What holds: the filter matches a deposit iff no token is registered or its token is. So
    deposits of registered tokens are always found, native ones only while there is none. *)
Theorem C52_filter_partial :
  forall self keccak s, reach self keccak any_env s ->
    forall sc e x, next_scrape (sys_state s) = Done sc -> encodes e x ->
      (topics_match (sc_topics sc) (le_topics e) <->
       (forall l c y, ~ listed (sys_state s) l c y) \/ exists l y, listed (sys_state s) l (dl_token x) y).
Proof.
  intros self keccak s H sc e x. exact (filter_listed self keccak any_env s sc e x H).
Qed.
Print Assumptions C52_filter_partial.
