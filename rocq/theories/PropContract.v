(** * C73, C74: the helper contract and what the minter makes of it *)

From Verif Require Import Base BMap MultiKeyMap Bytes Types Amount Tx CallData Network Hex
  Transactions State Audit Ranges Rlp Parser Memo Driver Sys SysSpec WithdrawSpec DepositSpec
  TokenSpec ReimburseSpec BurnSpec BalanceSpec SolvencySpec ParserSpec Keccak Contract ContractSpec
  ContractFacts BalanceFacts SolvencyFacts Scenario PropWithdraw PropFinalize PropNet.

(** ** C73 *)

(** The minter looks for the hash of the signature of the contract's event, and its ERC20
    transactions call the function [transfer]. *)
Theorem C73_topic :
  keccak256 (text_of "DepositLog(address,address,uint256,bytes32,bytes32)") = DEPOSIT_TOPIC /\
  firstn 4 (keccak256 (text_of "transfer(address,uint256)")) = ERC20_TRANSFER_SELECTOR.
Proof. split; vm_compute; reflexivity. Qed.
Print Assumptions C73_topic.

(** If the call names a principal, the minter reads the log of the call as what the call
    deposited. *)
Theorem C73_understood :
  forall v c w w' l m e p, proper v c -> deposit v c w = Some (w', l) -> mi_log m = l -> renders m e ->
    owner_principal p -> holds_principal (dc_principal c) p ->
    parse_log e = Done (ROk (deposit_of (call_deposit c p) (mi_block m) (fst (mi_source m)) (snd (mi_source m)))).
Proof. exact log_parses. Qed.
Print Assumptions C73_understood.

(** If it names none, the minter refuses the deposit, at the place of the log. *)
Theorem C73_refused :
  forall v c w w' l m e, proper v c -> deposit v c w = Some (w', l) -> mi_log m = l -> renders m e ->
    (forall p, owner_principal p -> ~ holds_principal (dc_principal c) p) ->
    exists x, parse_log e = Done (RErr (InvalidEventSource (mi_source m) x)).
Proof. exact log_refused. Qed.
Print Assumptions C73_refused.

(** What the log says has reached the minter's address: the value of the call, or else what
    the token moved. *)
Theorem C73_arrives :
  forall v c w w' l, lawful v -> proper v c -> deposit v c w = Some (w', l) ->
    if 0 <? dc_value c
    then holds v Native w' = holds v Native w + dc_value c
    else forall ledger, standard v (Token (dc_token c) ledger) ->
      holds v (Token (dc_token c) ledger) w' = holds v (Token (dc_token c) ledger) w + dc_amount c.
Proof. exact log_arrives. Qed.
Print Assumptions C73_arrives.

(** Nobody gets a log for native tokens without paying. *)
Theorem C73_not_for_nothing :
  forall v c w, lawful v -> dc_value c = 0 -> dc_token c = 0 -> deposit v c w = None.
Proof. exact not_for_nothing. Qed.
Print Assumptions C73_not_for_nothing.

(** ** Witnesses *)

(** A chain with one token, 187, that does as asked *)
Definition token_move (w : World) (t from to n : N) : option World :=
  if w_tokens w t from <? n then None
  else Some {| w_native := w_native w;
               w_tokens := fun c x => if c =? t
                 then (if x =? from then w_tokens w c x - n else w_tokens w c x) + (if x =? to then n else 0)
                 else w_tokens w c x |}.
Definition v0 : Evm :=
  {| evm_helper := 170; evm_minter := 300; evm_code := fun _ x => (x =? 187) || (x =? 170);
     evm_transfer_from := token_move; evm_accepts := fun _ _ => true |}.
Definition w0 : World := {| w_native := fun _ => 10 ^ 18; w_tokens := fun _ x => if x =? 221 then 8000 else 0 |}.
Definition native_call : DepositCall :=
  {| dc_sender := 221; dc_value := 100000000; dc_token := 187; dc_amount := 77;
     dc_principal := principal_word user0; dc_subaccount := word 0 |}.
Definition token_call : DepositCall :=
  {| dc_sender := 221; dc_value := 0; dc_token := 187; dc_amount := 5000;
     dc_principal := principal_word user0; dc_subaccount := word 0 |}.
Definition hs0 : list Happening :=
  [ByHelper (11, 1) 103 native_call; ByHelper (9, 9) 103 {| dc_sender := 221; dc_value := 0; dc_token := 0;
     dc_amount := 5000; dc_principal := principal_word user0; dc_subaccount := word 0 |};
   ByHelper (22, 2) 104 token_call].

Lemma lawful0 : lawful v0.
Proof. split; [discriminate|reflexivity]. Qed.
Lemma standard0 l : standard v0 (Token 187 l).
Proof.
  cbn. unfold token_move. intros w from to n w'. destruct (w_tokens w 187 from <? n); [discriminate|]. intros H. injection H as <-.
  intros Hn. cbn. rewrite (N.eqb_refl to). destruct (N.eqb_spec to from) as [->|_]; [contradiction|reflexivity].
Qed.
Lemma word_bytes : List.length (word 0) = 32%nat /\ byte_list (word 0).
Proof. split; [apply be_bytes_length|apply be_bytes_byte_list]. Qed.
Lemma user_bytes : List.length (principal_word user0) = 32%nat /\ byte_list (principal_word user0).
Proof. split; [reflexivity|]. unfold byte_list. cbn. repeat constructor. Qed.
Lemma proper0 value token amount : value < 2 ^ 256 -> token < 2 ^ 160 -> amount < 2 ^ 256 ->
  proper v0 {| dc_sender := 221; dc_value := value; dc_token := token; dc_amount := amount;
     dc_principal := principal_word user0; dc_subaccount := word 0 |}.
Proof.
  intros. constructor; cbn [dc_sender dc_value dc_token dc_amount dc_principal dc_subaccount]; auto using word_bytes, user_bytes.
  - reflexivity.
  - discriminate.
  - discriminate.
Qed.
Lemma all_proper0 : all_proper v0 hs0.
Proof. intros p b c [E|[E|[E|[]]]]; injection E as <- <- <-; apply proper0; reflexivity. Qed.

(** The native call, with tokens named that are not looked at *)
Example C73_native_witness :
  exists w' l e, proper v0 native_call /\ deposit v0 native_call w0 = Some (w', l) /\
    renders {| mi_source := (11, 1); mi_block := 103; mi_log := l |} e /\
    owner_principal user0 /\ holds_principal (dc_principal native_call) user0 /\
    w_native w' 300 = w_native w0 300 + 100000000 /\
    parse_log e = Done (ROk (DepNative {| ne_transaction_hash := 11; ne_block_number := 103; ne_log_index := 1;
      ne_from_address := 221; ne_value := 100000000; ne_principal := user0; ne_subaccount := None |})).
Proof.
  do 2 eexists. exists (deposit_log 11 1 103 0 100000000 221 user0).
  split; [apply proper0; reflexivity|]. split; [reflexivity|].
  split; [unfold renders, mined; cbn [mi_log log_of el_topics]; rewrite topic_is; repeat split; discriminate|].
  split; [split; [cbn; lia|discriminate]|]. split; [exists 29%nat; reflexivity|].
  split; [reflexivity|]. vm_compute. reflexivity.
Qed.
(** A call that names no principal: the tokens go to the minter, the deposit is refused. *)
Definition bad_call : DepositCall :=
  {| dc_sender := 221; dc_value := 100000000; dc_token := 0; dc_amount := 0;
     dc_principal := word 0; dc_subaccount := word 0 |}.
Theorem C73_funds_kept_refuted :
  exists v c w w' l, lawful v /\ proper v c /\ deposit v c w = Some (w', l) /\
    holds v Native w' = holds v Native w + 100000000 /\
    forall m e, mi_log m = l -> renders m e -> exists x, parse_log e = Done (RErr (InvalidEventSource (mi_source m) x)).
Proof.
  assert (Hp : proper v0 bad_call).
  { constructor; cbn [dc_sender dc_value dc_token dc_amount dc_principal dc_subaccount bad_call]; auto using word_bytes; try reflexivity; discriminate. }
  exists v0, bad_call, w0. do 2 eexists. split; [exact lawful0|]. split; [exact Hp|]. split; [reflexivity|]. split; [reflexivity|].
  intros m e Hm He. refine (C73_refused v0 bad_call w0 _ _ m e Hp eq_refl Hm He _).
  intros p [Hl _] [k Hk]. destruct p as [|x p]; [cbn in Hl; lia|]. discriminate Hk.
Qed.
Print Assumptions C73_funds_kept_refuted.
(** A call that reverts, since there is no token at address 0 *)
Example C73_nothing_witness : lawful v0 /\
  deposit v0 {| dc_sender := 221; dc_value := 0; dc_token := 0; dc_amount := 5000;
     dc_principal := principal_word user0; dc_subaccount := word 0 |} w0 = None.
Proof. split; [exact lawful0|reflexivity]. Qed.

(** ** C74 *)

(** The environment of C74: upgrades do not set the nonce back, and providers report only
    what the contract emitted. *)
Definition truthful_env (ms : list Mined) (s : Sys) (l : Label) : Prop := nonce_kept s l /\ reports ms l.

(** Every deposit that the minter accepted was made: somebody called the contract, at the
    place and in the block named, and deposited that for that principal. *)
Theorem C74_was_made :
  forall self keccak v w hs s d, all_proper v hs -> reach self keccak (fun _ l => reports (emitted v w hs) l) s ->
    deposit_accepted (sys_log s) d ->
    exists c block p, In (ByHelper (dep_source d) block c) hs /\ holds_principal (dc_principal c) p /\ owner_principal p /\
      d = deposit_of (call_deposit c p) block (fst (dep_source d)) (snd (dep_source d)).
Proof. intros self keccak v w hs s d Hp. exact (deposits_made self keccak v w hs Hp _ (fun _ _ H => H) s d). Qed.
Print Assumptions C74_was_made.

(** What was accepted has arrived. *)
Theorem C74_accepted_arrived :
  forall self keccak v w hs s a, lawful v -> all_proper v hs -> standard v a ->
    reach self keccak (fun _ l => reports (emitted v w hs) l) s ->
    accepted_value a (history (sys_log s)) <= arrived v a w hs.
Proof. intros self keccak v w hs s a Hl Hp Hs Hr. exact (deposits_backed self keccak v w hs Hl Hp _ (fun _ _ H => H) s a Hr Hs). Qed.
Print Assumptions C74_accepted_arrived.

(** The tokens in circulation, everything still owed, the fees kept and what was paid out
    are covered by what has arrived: native tokens ... *)
Theorem C74_native :
  forall self keccak v w hs s, lawful v -> all_proper v hs ->
    reach self keccak (truthful_env (emitted v w hs)) s -> native_apart (sys_state s) ->
    owed self Native s + unspent Native (sys_state s) + paid_out Native (history (sys_log s)) <= arrived v Native w hs.
Proof. exact backed_native. Qed.
Print Assumptions C74_native.

(** ... and registered tokens that do as asked. *)
Theorem C74_token :
  forall self keccak v w hs s contract ledger symbol, lawful v -> all_proper v hs ->
    reach self keccak (truthful_env (emitted v w hs)) s ->
    listed (sys_state s) ledger contract symbol -> ledger <> native_ledger_id (sys_state s) ->
    standard v (Token contract ledger) ->
    owed self (Token contract ledger) s + paid_out (Token contract ledger) (history (sys_log s)) <=
      arrived v (Token contract ledger) w hs.
Proof. intros self keccak v w hs s c l sy Hl Hp Hr. exact (backed_token self keccak v w hs s Hl Hp Hr c l sy). Qed.
Print Assumptions C74_token.

(** ** Witnesses *)

Lemma reported0 v w hs : emitted v w hs =
    [{| mi_source := (11, 1); mi_block := 103; mi_log := log_of v0 0 100000000 native_call |};
     {| mi_source := (22, 2); mi_block := 104; mi_log := log_of v0 187 5000 token_call |}] ->
  forall e, In e logs0 -> exists m, In m (emitted v w hs) /\ renders m e.
Proof.
  intros ->. intros e [<-|[<-|[]]]; eexists;
    [split; [left; reflexivity|]|split; [right; left; reflexivity|]];
    unfold renders, mined; cbn [mi_log log_of el_topics]; rewrite topic_is; repeat split; discriminate.
Qed.
Definition other_label (l : Label) : bool :=
  match l with LUpgrade _ _ | LAnswer _ (ReLogs _) => false | _ => true end.
Lemma truthful_reach v w hs ls s : emitted v w hs =
    [{| mi_source := (11, 1); mi_block := 103; mi_log := log_of v0 0 100000000 native_call |};
     {| mi_source := (22, 2); mi_block := 104; mi_log := log_of v0 187 5000 token_call |}] ->
  run0 ls = Done s -> nth_error ls 4 = Some (LAnswer 1 (ReLogs (LogsOk logs0))) ->
  forallb other_label (firstn 4 ls ++ skipn 5 ls) = true ->
  reach self0 keccak0 (truthful_env (emitted v w hs)) s.
Proof.
  intros Hm H Hn Hl. eapply reach_run0; [exact H|]. intros x l Hin.
  assert (Hc : l = LAnswer 1 (ReLogs (LogsOk logs0)) \/ other_label l = true).
  { rewrite forallb_forall in Hl. apply In_nth_error in Hin as (n & Hin). destruct (Nat.lt_trichotomy n 4) as [Hlt|[->|Hgt]].
    - right. apply Hl. apply in_or_app. left. apply nth_error_In with n. rewrite <- Hin.
      clear - Hlt. revert n Hlt. generalize 4%nat as k. revert ls. induction ls as [|y ls IH]; intros [|k] [|n] Hlt; try lia; try reflexivity.
      cbn. apply IH. lia.
    - left. congruence.
    - right. apply Hl. apply in_or_app. right. apply nth_error_In with (n - 5)%nat. rewrite <- Hin.
      clear - Hgt. replace n with (5 + (n - 5))%nat at 2 by lia. generalize (n - 5)%nat as k. intros k.
      do 5 (destruct ls as [|? ls]; [destruct k; reflexivity|]). reflexivity. }
  split.
  - destruct Hc as [->|Hc]; [exact Logic.I|]. destruct l; try exact Logic.I. discriminate.
  - destruct Hc as [->|Hc]; [exact (reported0 v w hs Hm)|]. destruct l as [| |id [] | |]; try exact Logic.I; discriminate.
Qed.
Lemma emitted0 : emitted v0 w0 hs0 =
    [{| mi_source := (11, 1); mi_block := 103; mi_log := log_of v0 0 100000000 native_call |};
     {| mi_source := (22, 2); mi_block := 104; mi_log := log_of v0 187 5000 token_call |}].
Proof. reflexivity. Qed.

Ltac listed_now := eexists; split; [vm_compute; reflexivity|left; vm_compute; reflexivity].
(** The history [all0]: the sums of [C74_native] and [C74_token] *)
Example C74_witness :
  exists s, reach self0 keccak0 (truthful_env (emitted v0 w0 hs0)) s /\ lawful v0 /\ all_proper v0 hs0 /\
    standard v0 (Token 187 token_ledger0) /\ listed (sys_state s) token_ledger0 187 (text_of "icUSDC") /\
    token_ledger0 <> native_ledger_id (sys_state s) /\ native_apart (sys_state s) /\
    (arrived v0 Native w0 hs0, arrived v0 (Token 187 token_ledger0) w0 hs0) = (100000000, 5000) /\
    (owed self0 Native s, unspent Native (sys_state s), paid_out Native (history (sys_log s))) =
      (48505500, 1006000, 50488500) /\
    (owed self0 (Token 187 token_ledger0) s, paid_out (Token 187 token_ledger0) (history (sys_log s))) = (5000, 0).
Proof.
  destruct (run0 all0) as [s|] eqn:E; [|vm_compute in E; discriminate].
  assert (Hr : reach self0 keccak0 (truthful_env (emitted v0 w0 hs0)) s).
  { eapply truthful_reach; [exact emitted0|exact E|reflexivity|vm_compute; reflexivity]. }
  vm_compute in E. injection E as <-. eexists. split; [exact Hr|]. split; [exact lawful0|]. split; [exact all_proper0|].
  split; [apply standard0|]. split; [listed_now|]. split; [discriminate|]. split; [apart_now|].
  split; [vm_compute; reflexivity|]. split; vm_compute; reflexivity.
Qed.

(** Without [standard] it is false: a token that takes a fee of 1% out of each transfer. The
    contract logs what it asked for, not what arrived, and the minter mints that. *)
Definition fee_move (w : World) (t from to n : N) : option World :=
  if w_tokens w t from <? n then None
  else Some {| w_native := w_native w;
               w_tokens := fun c x => if c =? t
                 then (if x =? from then w_tokens w c x - n else w_tokens w c x) + (if x =? to then n - n / 100 else 0)
                 else w_tokens w c x |}.
Definition v1 : Evm :=
  {| evm_helper := 170; evm_minter := 300; evm_code := fun _ x => (x =? 187) || (x =? 170);
     evm_transfer_from := fee_move; evm_accepts := fun _ _ => true |}.
Theorem C74_fee_on_transfer_refuted :
  exists self keccak v w hs s contract ledger symbol, lawful v /\ all_proper v hs /\
    reach self keccak (truthful_env (emitted v w hs)) s /\
    listed (sys_state s) ledger contract symbol /\ ledger <> native_ledger_id (sys_state s) /\
    arrived v (Token contract ledger) w hs = 4950 /\ supply self ledger (sys_ops s) = 5000.
Proof.
  destruct (run0 (register0 ++ scrape0 ++ mint0)) as [s|] eqn:E; [|vm_compute in E; discriminate].
  assert (Hr : reach self0 keccak0 (truthful_env (emitted v1 w0 hs0)) s).
  { eapply truthful_reach; [reflexivity|exact E|reflexivity|vm_compute; reflexivity]. }
  vm_compute in E. injection E as <-. exists self0, keccak0, v1, w0, hs0. eexists. exists 187, token_ledger0, (text_of "icUSDC").
  split; [split; [discriminate|reflexivity]|].
  split. { intros p b c Hin. destruct (all_proper0 p b c Hin). constructor; assumption. }
  split; [exact Hr|]. split; [listed_now|]. split; [discriminate|]. split; vm_compute; reflexivity.
Qed.
Print Assumptions C74_fee_on_transfer_refuted.

(** ** The hash function of the model is the one in use *)

(** the examples of the project's tests, tests.rs 344-352: keys and their addresses *)
Example keccak_addresses :
  map (fun k => address_to_text keccak256 (address_of_key (bytes_of_hex k)))
    ["04e68acfc0253a10620dff706b0a1b1f1f5833ea3beb3bde2250d5f271f3563606672ebc45e0b7ea2e816ecb70ca03137b1c9476eec63d4632e990020b7b6fba39"%string;
     "04bbe06c9dd095cdf0aded667ea17621e8c1fdcd36ffe112a9c94e47aa6be1406a666e1001cf0067d0f9a541043dfc5438ead7be3ecbcdc328b67d8f966bceea63"%string] =
  [text_of "0x90F8bf6A479f320ead074411a4B0e7944Ea8c9C1"; text_of "0x721B68fA152a930F3df71F54aC1ce7ed3ac5f867"].
Proof. vm_compute. reflexivity. Qed.

(** a transaction on Sepolia, tests.rs 454-494: its hash for signing, its bytes, its hash *)
Example keccak_transaction :
  keccak256 (signing_payload sepolia_tx) = bytes_of_hex "2d9e6453d9864cff7453ca35dcab86be744c641ba4891c2fe9aeaa2f767b9758" /\
  raw_bytes sepolia_tx sepolia_sig = bytes_of_hex "02f89883aa36a7068459682f0084598653cd82dcbf94b44b5e756a894775fc32eddf3314bb1b1944dc3487038d7ea4c68000a4b214faa51d882d15b09f8e81e29606305f5fefc5eff3e2309620a3557ecae39d62020000c001a07d097b81dc8bf5ad313f8d6656146d4723d0e6bb3fb35f1a709e6a3d4426c0f3a04f8a618d959e7d96e19156f0f5f2ed321b34e2004a0c8fdb7f02bc7d08b74441" /\
  keccak256 (raw_bytes sepolia_tx sepolia_sig) = bytes_of_hex "66a9a218ea720ac6d2c9e56f7e44836c1541c186b7627bda220857ce34e2df7f".
Proof. split; [|split]; vm_compute; reflexivity. Qed.
