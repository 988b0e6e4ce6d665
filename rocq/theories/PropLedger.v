(** * C76, C77, C78 and more of C53: the minter and its ledgers together *)

From Verif Require Import Base BMap MultiKeyMap Bytes Types Amount Tx CallData Network Hex
  Transactions State Audit Ranges Rlp Parser Memo Driver Sys SysSpec SysFacts GuardSpec WithdrawSpec DepositSpec
  TokenSpec ReimburseSpec BurnSpec BalanceSpec SolvencySpec FeeSpec CallSpec ParserSpec Contract ContractSpec FundsSpec Ledger LedgerSpec
  LedgerFacts LedgerRun Scenario PropWithdraw PropGuards PropDeposit PropCalls PropSolvency PropContract PropFunds.

(** ** The assumptions about ledgers in all other theorems *)

(** A run with ledgers that keep the rules of ICRC-1 and ICRC-2 is a run of the model. *)
Theorem C76_is_modelled :
  forall self keccak env s ls, together self keccak env s ls -> reach self keccak env s.
Proof.
  intros self keccak env s ls H. apply together_reach in H. revert H. apply reach_weaken. intros x l H. exact (proj1 H).
Qed.
Print Assumptions C76_is_modelled.

(** What such a ledger executes is what the model lets a ledger execute: the block is new,
    and no more is burned than was minted. *)
Theorem C76_rules :
  forall self keccak env s ls id c b ls', together self keccak env s ls -> executes self s ls id c b ls' ->
    (forall c', call_ledger c' = call_ledger c -> ~ In (c', b) (sys_ops s)) /\
    (is_burn self c = true -> call_amount c + burned_total self (call_ledger c) (sys_ops s) <= minted_total (call_ledger c) (sys_ops s)) /\
    sys_ops (step self keccak s (LAnswer id (ReLedger (LedgerOk b)))) = sys_ops s ++ [(c, b)].
Proof.
  intros self keccak env s ls id c b ls' Ht (t & l & Hg & Hc & Hx & ->).
  pose proof (rules_kept self keccak env s ls id t None c b l (together_agree self keccak env s ls Ht) (together_reach self keccak env s ls Ht) Hg Hc Hx) as Ha.
  split; [|split; [|exact (op_step self keccak s id t c b Hg Hc Ha)]]; apply andb_prop in Ha as [H1 H2].
  - intros c' El Hin. apply negb_true_iff in H1. enough (true = false) by discriminate. rewrite <- H1. symmetry.
    apply existsb_exists. exists (c', b). split; [exact Hin|]. cbn. rewrite El, bytes_eqb_refl, N.eqb_refl. reflexivity.
  - intros Hb. rewrite Hb in H2. apply N.leb_le in H2. exact H2.
Qed.
Print Assumptions C76_rules.

(** ** C76 *)

(** When the minter makes a ledger lower the balance of an account, then it is the default
    account of a caller whose withdrawal call is still running. The amount is taken from the
    allowance that they gave to the minter. *)
Theorem C76_own_request :
  forall self keccak env s ls id c b ls' p h, together self keccak env s ls -> executes self s ls id c b ls' ->
    lg_balance (ls' p) h < lg_balance (ls p) h ->
    exists u q, In (id, u) (sys_calls s) /\ (forall o, ~ In (id, o) (sys_outcomes s)) /\
      withdrawing u = Some q /\ h = holder (default_account q) /\
      let taken := op_cost self (lg_fee (ls p)) p h (c, b) in
      lg_balance (ls' p) h + taken = lg_balance (ls p) h /\
      lg_allowance (ls' p) h (minting self) + taken = lg_allowance (ls p) h (minting self).
Proof. intros self keccak env s ls id c b ls' p h. exact (taken_from_owner self keccak env s ls id c b ls' p h). Qed.
Print Assumptions C76_own_request.

Section Cost.
Variable self : Principal.
Variable keccak : list N -> Hash.

(** All that a native withdrawal takes, on all ledgers: at most the amount asked for, or the
    fee if that is more; exactly the amount if it is accepted. The ledger's fee is included,
    if it is the one that the minter was told. *)
Theorem C76_native_cost s0 p a r now fees ops evs o :
  reach self keccak any_env s0 -> sys_clock s0 <= now -> answered self keccak s0 (CallWithdrawNative p a r) now fees ops evs o ->
  let st := sys_state s0 in
  let tf := native_ledger_transfer_fee st in
  match withdrawal_native_fee st with Some f => tf <= f | None => True end ->
  forall l, let taken := sum_of (op_cost self tf l (holder (default_account p))) ops in
    taken <= (if bytes_eqb (native_ledger_id st) l then N.max a (fee st) else 0) /\
    (forall q, o = OutNative (ROk q) -> taken = if bytes_eqb (native_ledger_id st) l then a else 0).
Proof.
  intros Hr Hc Ha st tf Hf l. exact (cost_native self st p l a r ops evs o Hf (C24_result self keccak s0 p a r now fees ops evs o Hr Hc Ha)).
Qed.

(** A token withdrawal takes nothing, or at most the fee, the gas fee and the tokens. *)
Theorem C76_erc20_cost s0 p a led r now fees ops evs o :
  reach self keccak any_env s0 -> sys_clock s0 <= now -> answered self keccak s0 (CallWithdrawErc20 p a led r) now fees ops evs o ->
  let st := sys_state s0 in
  let tf := native_ledger_transfer_fee st in
  match withdrawal_native_fee st with Some f => tf <= f | None => True end ->
  ops = [] \/ exists g, quoted st now fees g /\ forall l,
    let taken := sum_of (op_cost self tf l (holder (default_account p))) ops in
    let most := (if bytes_eqb (native_ledger_id st) l then fee st + g else 0) + (if bytes_eqb led l then a else 0) in
    taken <= most /\ (forall q, o = OutErc20 (ROk q) -> g = ew_max_transaction_fee q /\ taken = most).
Proof.
  intros Hr Hc Ha st tf Hf. apply (C25_result self keccak) in Ha; auto. exact (cost_erc20 self st p now a led r fees ops evs o Hf Ha).
Qed.
End Cost.
Print Assumptions C76_native_cost.
Print Assumptions C76_erc20_cost.

(** ** C77 *)

(** The balances of any accounts together are at most what was minted and not burned. *)
Theorem C77_supply :
  forall self keccak env s ls p hs, together self keccak env s ls -> NoDup hs -> held_by hs (ls p) <= supply self p (sys_ops s).
Proof.
  intros self keccak env s ls p hs Ht Hn. pose proof (ag_supply _ _ _ (together_agree self keccak env s ls Ht) p hs Hn) as H. unfold supply. lia.
Qed.
Print Assumptions C77_supply.

(** So they are covered by what the minter holds, besides everything else that it owes. *)
Theorem C77_native :
  forall self keccak s ls hs, together self keccak nonce_kept s ls -> native_apart (sys_state s) -> NoDup hs ->
    held_by hs (ls (native_ledger_id (sys_state s))) + to_mint Native s + outstanding Native (history (sys_log s)) +
      to_repay Native s + in_flight Native s + unspent Native (sys_state s) <= held Native (sys_state s).
Proof.
  intros self keccak s ls hs Ht Ha Hn. pose proof (C77_supply self keccak nonce_kept s ls (native_ledger_id (sys_state s)) hs Ht Hn) as H.
  destruct (C32_native self keccak s (C76_is_modelled self keccak nonce_kept s ls Ht) Ha) as (_ & H2).
  cbn [asset_ledger] in H2. lia.
Qed.
Print Assumptions C77_native.
Theorem C77_token :
  forall self keccak s ls hs contract ledger symbol, together self keccak nonce_kept s ls ->
    listed (sys_state s) ledger contract symbol -> ledger <> native_ledger_id (sys_state s) -> NoDup hs ->
    let a := Token contract ledger in
    held_by hs (ls ledger) + to_mint a s + outstanding a (history (sys_log s)) + to_repay a s + in_flight a s <= held a (sys_state s).
Proof.
  intros self keccak s ls hs c l sy Ht Hl Hne Hn a. pose proof (C77_supply self keccak nonce_kept s ls l hs Ht Hn) as H.
  destruct (C32_token self keccak s c l sy (C76_is_modelled self keccak nonce_kept s ls Ht) Hl Hne) as (_ & H2).
  cbn [asset_ledger] in H2. fold a in H2. lia.
Qed.
Print Assumptions C77_token.

(** ... and by what the minter's address holds on the chain. *)
Theorem C77_on_chain_native :
  forall self keccak v w wes s ls xs now hs, lawful v -> all_proper v wes ->
    together self keccak (truthful_env (emitted v w wes)) s ls -> executed (history (sys_log s)) xs ->
    native_apart (sys_state s) -> took v Native w wes xs now -> arrived v Native w wes < 2 ^ 256 - 1 -> NoDup hs ->
    held_by hs (ls (native_ledger_id (sys_state s))) + to_mint Native s + sum_of (request_part Native) (to_pay (history (sys_log s)) xs) +
      to_repay Native s <= holds v Native now.
Proof.
  intros self keccak v w wes s ls xs now hs Hl Hp Ht Hx Ha Hto Har Hn.
  pose proof (C77_supply self keccak _ s ls (native_ledger_id (sys_state s)) hs Ht Hn) as H.
  pose proof (C75_native self keccak v w wes s xs now Hl Hp (C76_is_modelled self keccak _ s ls Ht) Hx Ha Hto Har) as H2.
  unfold still_owed in H2. cbn [asset_ledger] in H2. lia.
Qed.
Print Assumptions C77_on_chain_native.
Theorem C77_on_chain_token :
  forall self keccak v w wes s ls xs now hs contract ledger symbol, lawful v -> all_proper v wes ->
    together self keccak (truthful_env (emitted v w wes)) s ls -> executed (history (sys_log s)) xs ->
    listed (sys_state s) ledger contract symbol -> ledger <> native_ledger_id (sys_state s) ->
    standard v (Token contract ledger) -> took v (Token contract ledger) w wes xs now -> NoDup hs ->
    let a := Token contract ledger in
    held_by hs (ls ledger) + to_mint a s + sum_of (request_part a) (to_pay (history (sys_log s)) xs) + to_repay a s <= holds v a now.
Proof.
  intros self keccak v w wes s ls xs now hs c l sy Hl Hp Ht Hx Hli Hne Hs Hto Hn a.
  pose proof (C77_supply self keccak _ s ls l hs Ht Hn) as H.
  pose proof (C75_token self keccak v w wes s xs now c l sy Hl Hp (C76_is_modelled self keccak _ s ls Ht) Hx Hli Hne Hs Hto) as H2.
  unfold still_owed in H2. cbn [asset_ledger] in H2. fold a in H2. lia.
Qed.
Print Assumptions C77_on_chain_token.

(** ** C78 *)

(** What the minter pays out arrives in full, and changes no other balance. *)
Theorem C78_in_full :
  forall self keccak env s ls id ledger to n m b ls', together self keccak env s ls -> executes self s ls id (Transfer ledger to n m) b ls' ->
    holder to <> minting self /\
    lg_balance (ls' ledger) (holder to) = lg_balance (ls ledger) (holder to) + n /\
    (forall h, h <> holder to -> lg_balance (ls' ledger) h = lg_balance (ls ledger) h) /\
    (forall p, p <> ledger -> ls' p = ls p).
Proof. intros self keccak env s ls id lg to n m b ls'. exact (paid_in_full self keccak env s ls id lg to n m b ls'). Qed.
Print Assumptions C78_in_full.

(** So the account named in a deposit gets the whole value, less the deposit fee for native
    tokens. *)
Theorem C78_deposit_arrives :
  forall self keccak env s ls id c b ls' src, together self keccak env s ls -> executes self s ls id c b ls' -> mint_source c = Some src ->
    exists e, dep_source e = src /\ deposit_accepted (sys_log s) e /\
      match e with
      | DepNative x =>
          let fee := match deposit_native_fee (sys_state s) with Some f => f | None => 0 end in
          let to := holder {| ac_owner := ne_principal x; ac_subaccount := option_map (be_bytes 32) (ne_subaccount x) |} in
          let l := native_ledger_id (sys_state s) in
          fee <= ne_value x /\ lg_balance (ls' l) to + fee = lg_balance (ls l) to + ne_value x
      | DepErc20 x =>
          let to := holder {| ac_owner := ee_principal x; ac_subaccount := option_map (be_bytes 32) (ee_subaccount x) |} in
          exists l symbol, registered (sys_log s) (ee_erc20_contract_address x) l symbol /\
          lg_balance (ls' l) to = lg_balance (ls l) to + ee_value x
      end.
Proof.
  intros self keccak env s ls id c b ls' src Ht Hx Hs.
  assert (Hr : reach self keccak any_env s) by (apply (reach_weaken self keccak env any_env s (fun _ _ _ => Logic.I)); exact (C76_is_modelled _ _ _ _ _ Ht)).
  destruct (C76_rules self keccak env s ls id c b ls' Ht Hx) as (_ & _ & Eo).
  destruct (C02_pays_the_depositor self keccak s Hr _ c b src Eo Hs) as (e & E1 & _ & E2 & Hp). exists e. split; [exact E1|]. split; [exact E2|].
  destruct e as [x|x]; cbn [pays] in Hp.
  - destruct Hp as (Hf & ->). destruct (C78_in_full self keccak env s ls id _ _ _ _ b ls' Ht Hx) as (_ & H & _).
    cbn zeta. split; [exact Hf|]. rewrite H. lia.
  - destruct Hp as (l & sy & Hreg & ->). destruct (C78_in_full self keccak env s ls id _ _ _ _ b ls' Ht Hx) as (_ & H & _).
    cbn zeta. exists l, sy. split; [exact Hreg|exact H].
Qed.
Print Assumptions C78_deposit_arrives.

(** No ledger refuses to execute it, whatever the state of the ledger ... *)
Theorem C78_never_refused :
  forall self s ls id t ledger to n m, bget id (sys_tasks s) = Some {| fl_task := t; fl_reply := None |} ->
    task_call self t = Some (Transfer ledger to n m) -> holder to <> minting self ->
    exists b ls', executes self s ls id (Transfer ledger to n m) b ls'.
Proof. intros self s ls id t lg to n m. exact (can_be_paid self s ls id t lg to n m). Qed.
Print Assumptions C78_never_refused.

(** ... unless it is for the minting account: a deposit for that account is never minted. *)
Theorem C78_own_account :
  forall self keccak env s ls src m, together self keccak env s ls -> minted (sys_state s) src m ->
    match me_deposit_event m with
    | DepNative x => (ne_principal x, ne_subaccount x)
    | DepErc20 x => (ee_principal x, ee_subaccount x)
    end <> (self, None).
Proof.
  intros self keccak env s ls src m Ht Hm Hd.
  assert (Hr : reach self keccak any_env s) by (apply (reach_weaken self keccak env any_env s (fun _ _ _ => Logic.I)); exact (C76_is_modelled _ _ _ _ _ Ht)).
  destruct (C56_minted_is_real self keccak s Hr src m Hm) as (c & Hin & _ & Hc).
  destruct (me_deposit_event m) as [x|x]; injection Hd as Hp Hs; cbn [credits pays] in Hc.
  - destruct Hc as (n & _ & ->). apply (never_to_minter self keccak env s ls _ _ _ _ _ Ht Hin). rewrite Hs, Hp. reflexivity.
  - destruct Hc as (l & sy & _ & ->). apply (never_to_minter self keccak env s ls _ _ _ _ _ Ht Hin). rewrite Hs, Hp. reflexivity.
Qed.
Print Assumptions C78_own_account.

(** ** C53 *)

(** The withdrawal fee is never given back, although the code tries to when the burn is
    refused: the minter never approves that its fee account is spent from. *)
Theorem C53_never_refunded :
  forall self keccak env s ls ledger to n m b, together self keccak env s ls ->
    In (TransferFrom ledger (fees_account self) to n m, b) (sys_ops s) -> n = 0.
Proof. intros self keccak env s ls lg to n m b. exact (never_refunded self keccak env s ls lg to n m b). Qed.
Print Assumptions C53_never_refunded.

(** ** Witnesses *)

Lemma joint_some acts : match joint0 acts with Some _ => true | None => false end = true -> exists s ls, joint0 acts = Some (s, ls).
Proof. destruct (joint0 acts) as [[s ls]|]; [eauto|discriminate]. Qed.
Ltac joint_of acts s ls E Ht :=
  destruct (joint_some acts ltac:(vm_compute; reflexivity)) as (s & ls & E);
  assert (Ht : together self0 keccak0 nonce_kept s ls) by
    (apply (joint0_together nonce_kept) in E; [exact E|intros ? [| | | |] ? ?; try exact Logic.I; discriminate]).

(** an observation of the state after a run *)
Definition seen {A} (f : Sys -> Ledgers -> A) (x : option (Sys * Ledgers)) : option A :=
  match x with Some (s, ls) => Some (f s ls) | None => None end.
Lemma seen_is {A} (f : Sys -> Ledgers -> A) x s ls a : x = Some (s, ls) -> seen f x = Some a -> f s ls = a.
Proof. intros -> H. cbn in H. congruence. Qed.

(** A withdrawal of 50000000 costs that much: the fee of 500, with the transfer fee of 10, and
    the rest is burned. *)
Definition account_of (p : Principal) (s : Sys) (ls : Ledgers) : N * N :=
  (lg_balance (ls p) user_account, lg_allowance (ls p) user_account (minting self0)).
Example C76_witness :
  exists s ls s' ls', together self0 keccak0 nonce_kept s ls /\ together self0 keccak0 nonce_kept s' ls' /\
    account_of native_ledger0 s ls = (99998990, 51000000) /\
    account_of native_ledger0 s' ls' = (99998990 - 50000000 - 787, 51000000 - 50000000) /\
    In 3 (map fst (sys_outcomes s')) /\ sys_next s = 3.
Proof.
  joint_of before_request s ls E Ht. joint_of (before_request ++ request0 ++ burned0) s' ls' E' Ht'.
  exists s, ls, s', ls'. split; [exact Ht|]. split; [exact Ht'|].
  split; [apply (seen_is _ _ _ _ _ E); vm_compute; reflexivity|].
  split; [apply (seen_is _ _ _ _ _ E'); vm_compute; reflexivity|].
  split; [|apply (seen_is (fun s _ => sys_next s) _ _ _ _ E); vm_compute; reflexivity].
  assert (Eo : map fst (sys_outcomes s') = [0; 1; 2; 3]) by (apply (seen_is (fun s _ => map fst (sys_outcomes s)) _ _ _ _ E'); vm_compute; reflexivity).
  rewrite Eo. cbn. auto 6.
Qed.

(** The second step of that call: the ledger burns what the user asked for. *)
Example C76_step_witness :
  exists s ls id c b ls', together self0 keccak0 nonce_kept s ls /\ executes self0 s ls id c b ls' /\
    lg_balance (ls' native_ledger0) user_account < lg_balance (ls native_ledger0) user_account /\
    op_cost self0 10 native_ledger0 user_account (c, b) = 49999500.
Proof.
  joint_of (before_request ++ request0) s ls E Ht.
  assert (E1 : match bget 3 (sys_tasks s) with
               | Some {| fl_task := t; fl_reply := None |} =>
                   match task_call self0 t with
                   | Some c => match execute self0 c (ls (call_ledger c)) with
                               | Some (b, l) => (lg_balance l user_account <? lg_balance (ls native_ledger0) user_account) &&
                                                (op_cost self0 10 native_ledger0 user_account (c, b) =? 49999500) &&
                                                bytes_eqb (call_ledger c) native_ledger0
                               | None => false
                               end
                   | None => false
                   end
               | _ => false
               end = true)
    by (apply (seen_is (fun s ls => match bget 3 (sys_tasks s) with
               | Some {| fl_task := t; fl_reply := None |} =>
                   match task_call self0 t with
                   | Some c => match execute self0 c (ls (call_ledger c)) with
                               | Some (b, l) => (lg_balance l user_account <? lg_balance (ls native_ledger0) user_account) &&
                                                (op_cost self0 10 native_ledger0 user_account (c, b) =? 49999500) &&
                                                bytes_eqb (call_ledger c) native_ledger0
                               | None => false
                               end
                   | None => false
                   end
               | _ => false
               end) _ _ _ _ E); vm_compute; reflexivity).
  clear E. destruct (bget 3 (sys_tasks s)) as [[t [r|]]|] eqn:Eg; try discriminate.
  destruct (task_call self0 t) as [c|] eqn:Ec; [|discriminate].
  destruct (execute self0 c (ls (call_ledger c))) as [[b l]|] eqn:Ex; [|discriminate].
  apply andb_prop in E1 as [E1 E3]. apply andb_prop in E1 as [E1 E2].
  exists s, ls, 3, c, b, (set_ledger (call_ledger c) l ls). split; [exact Ht|]. split; [exists t, l; auto|].
  apply bytes_eqb_eq in E3. rewrite E3, set_same. split; [apply N.ltb_lt; exact E1|apply N.eqb_eq; exact E2].
Qed.

(** The balances of three accounts, and what the minter holds *)
Definition apart_b (st : State) : bool :=
  match supported_erc20_tokens st with
  | Done l => forallb (fun t => negb (bytes_eqb (et_ledger_id t) (native_ledger_id st))) l
  | _ => false
  end.
Lemma apart_is st : apart_b st = true -> native_apart st.
Proof.
  unfold apart_b. intros H l c sy (x & Hx & Hin). rewrite Hx in H. rewrite forallb_forall in H. specialize (H _ Hin). cbn in H.
  apply negb_true_iff in H. exact (bytes_ne _ _ H).
Qed.
Definition three : list Holder := [user_account; holder (fees_account self0); holder (default_account [8; 8])].
Example C77_witness :
  exists s ls, together self0 keccak0 nonce_kept s ls /\ native_apart (sys_state s) /\ NoDup three /\
    native_ledger_id (sys_state s) = native_ledger0 /\
    held_by three (ls native_ledger0) = 49998203 + 1490 + 777 /\ outstanding Native (history (sys_log s)) = 49999500 /\
    held Native (sys_state s) = 100000000.
Proof.
  joint_of (before_request ++ request0 ++ burned0) s ls E Ht.
  exists s, ls. split; [exact Ht|].
  split; [apply apart_is; apply (seen_is (fun s _ => apart_b (sys_state s)) _ _ _ _ E); vm_compute; reflexivity|].
  split; [|split; [|split; [|split]]].
  - repeat constructor; cbn; intuition discriminate.
  - apply (seen_is (fun s _ => native_ledger_id (sys_state s)) _ _ _ _ E); vm_compute; reflexivity.
  - apply (seen_is (fun _ ls => held_by three (ls native_ledger0)) _ _ _ _ E); vm_compute; reflexivity.
  - apply (seen_is (fun s _ => outstanding Native (history (sys_log s))) _ _ _ _ E); vm_compute; reflexivity.
  - apply (seen_is (fun s _ => held Native (sys_state s)) _ _ _ _ E); vm_compute; reflexivity.
Qed.

(** Both deposits were made and minted: the user's tokens are at the minter's address. *)
Lemma took0 a : (a = Native \/ a = Token 187 token_ledger0) -> exists now, took v0 a w2 hs0 [] now /\
  holds v0 a now = match a with Native => 100000000 | _ => 5000 end.
Proof.
  intros Ha. eexists. unfold hs0. split.
  - eapply took_call; [reflexivity| |]. { destruct Ha as [->| ->]; vm_compute; discriminate. }
    apply took_failed; [reflexivity|].
    eapply took_call; [reflexivity| |apply took_end]. destruct Ha as [->| ->]; vm_compute; discriminate.
  - destruct Ha as [->| ->]; vm_compute; reflexivity.
Qed.
Example C77_on_chain_witness :
  exists s ls now now', lawful v0 /\ all_proper v0 hs0 /\ together self0 keccak0 (truthful_env (emitted v0 w2 hs0)) s ls /\
    executed (history (sys_log s)) [] /\ native_apart (sys_state s) /\ took v0 Native w2 hs0 [] now /\
    took v0 (Token 187 token_ledger0) w2 hs0 [] now' /\ standard v0 (Token 187 token_ledger0) /\
    listed (sys_state s) token_ledger0 187 (text_of "icUSDC") /\ NoDup three /\ arrived v0 Native w2 hs0 < 2 ^ 256 - 1 /\
    held_by three (ls native_ledger0) = 99999990 /\ holds v0 Native now = 100000000 /\
    held_by three (ls token_ledger0) = 4990 /\ holds v0 (Token 187 token_ledger0) now' = 5000.
Proof.
  destruct (joint_some before_request ltac:(vm_compute; reflexivity)) as (s & ls & E).
  assert (Ht : together self0 keccak0 (truthful_env (emitted v0 w2 hs0)) s ls).
  { apply (joint0_together (truthful_env (emitted v0 w2 hs0))) in E; [exact E|]. intros x l Hin _.
    assert (Hc : l = LAnswer 1 (ReLogs (LogsOk logs0)) \/ other_label l = true).
    { unfold before_request, before_approval in Hin. apply in_app_or in Hin as [Hin|Hin].
      - apply in_map_iff in Hin as (l' & El & Hin). injection El as ->. unfold register0, scrape0, mint0, ans, ledger_ok in Hin. cbn [app] in Hin.
        repeat (destruct Hin as [<-|Hin]; [first [right; reflexivity|left; reflexivity]|]). destruct Hin.
      - destruct Hin as [Hin|[Hin|[]]]; discriminate. }
    split.
    - destruct Hc as [->|Hc]; [exact Logic.I|]. destruct l; try exact Logic.I. discriminate.
    - destruct Hc as [->|Hc]; [exact (reported0 v0 w2 hs0 eq_refl)|]. destruct l as [| |id [] | |]; try exact Logic.I; discriminate. }
  destruct (took0 Native (or_introl eq_refl)) as (now & H1 & H2).
  destruct (took0 (Token 187 token_ledger0) (or_intror eq_refl)) as (now' & H3 & H4).
  exists s, ls, now, now'. split; [exact lawful0|]. split; [exact all_proper0|]. split; [exact Ht|].
  split.
  { constructor; [intros ? []|constructor|intros ? []|].
    assert (Es : settlements (history (sys_log s)) = []) by (apply (seen_is (fun s _ => settlements (history (sys_log s))) _ _ _ _ E); vm_compute; reflexivity).
    rewrite Es. intros ? []. }
  split; [apply apart_is; apply (seen_is (fun s _ => apart_b (sys_state s)) _ _ _ _ E); vm_compute; reflexivity|].
  split; [exact H1|]. split; [exact H3|]. split; [apply standard0|].
  split.
  { assert (Es : supported_erc20_tokens (sys_state s) = Done [{| et_chain_id := Sepolia; et_contract_address := 187;
        et_symbol := text_of "icUSDC"; et_ledger_id := token_ledger0 |}])
      by (apply (seen_is (fun s _ => supported_erc20_tokens (sys_state s)) _ _ _ _ E); vm_compute; reflexivity).
    assert (En : evm_network (sys_state s) = Sepolia) by (apply (seen_is (fun s _ => evm_network (sys_state s)) _ _ _ _ E); vm_compute; reflexivity).
    exists [{| et_chain_id := Sepolia; et_contract_address := 187; et_symbol := text_of "icUSDC"; et_ledger_id := token_ledger0 |}].
    rewrite En. split; [exact Es|left; reflexivity]. }
  split; [repeat constructor; cbn; intuition discriminate|]. split; [vm_compute; reflexivity|].
  split; [apply (seen_is (fun _ ls => held_by three (ls native_ledger0)) _ _ _ _ E); vm_compute; reflexivity|].
  split; [exact H2|].
  split; [apply (seen_is (fun _ ls => held_by three (ls token_ledger0)) _ _ _ _ E); vm_compute; reflexivity|exact H4].
Qed.

(** A deposit is about to be minted. *)
Example C78_witness :
  exists s ls id t ledger to n m, together self0 keccak0 nonce_kept s ls /\
    bget id (sys_tasks s) = Some {| fl_task := t; fl_reply := None |} /\ task_call self0 t = Some (Transfer ledger to n m) /\
    holder to = user_account /\ n = 99999000 /\ mint_source (Transfer ledger to n m) = Some (11, 1).
Proof.
  joint_of (map Minter (register0 ++ scrape0 ++ [LTimer TimerMint 30])) s ls E Ht.
  assert (E1 : exists t, bget 2 (sys_tasks s) = Some {| fl_task := t; fl_reply := None |} /\
    task_call self0 t = Some (Transfer native_ledger0 {| ac_owner := user0; ac_subaccount := None |} 99999000
                          (Some (MemoMint (MintConvert 221 11 1))))).
  { assert (E2 : option_map (fun f => (task_call self0 (fl_task f), fl_reply f)) (bget 2 (sys_tasks s)) =
      Some (Some (Transfer native_ledger0 {| ac_owner := user0; ac_subaccount := None |} 99999000
                          (Some (MemoMint (MintConvert 221 11 1)))), None))
      by (apply (seen_is (fun s _ => option_map (fun f => (task_call self0 (fl_task f), fl_reply f)) (bget 2 (sys_tasks s))) _ _ _ _ E);
          vm_compute; reflexivity).
    destruct (bget 2 (sys_tasks s)) as [[t r]|]; [|discriminate]. cbn [option_map fl_task fl_reply] in E2.
    injection E2 as E2 ->. exists t. auto. }
  destruct E1 as (t & E1 & E2). exists s, ls, 2, t, native_ledger0, {| ac_owner := user0; ac_subaccount := None |}, 99999000,
    (Some (MemoMint (MintConvert 221 11 1))). auto 10.
Qed.

(** Somebody deposits for the minter itself. The deposit is accepted and will never be minted:
    not every accepted deposit is. *)
Definition own_deposit : list Act :=
  map Minter (LTimer TimerScrape 20 :: ans 0 (ReBlock (Some 105)) 21 ++
    ans 0 (ReLogs (LogsOk [deposit_log 55 5 103 0 100000000 221 self0])) 22).
Theorem C78_own_account_refuted :
  exists s ls e, together self0 keccak0 nonce_kept s ls /\ deposit_accepted (sys_log s) e /\
    forall s' ls' m, together self0 keccak0 nonce_kept s' ls' -> minted (sys_state s') (dep_source e) m -> me_deposit_event m <> e.
Proof.
  joint_of own_deposit s ls E Ht.
  pose (x := {| ne_transaction_hash := 55; ne_block_number := 103; ne_log_index := 5; ne_from_address := 221;
                ne_value := 100000000; ne_principal := self0; ne_subaccount := None |}).
  exists s, ls, (DepNative x). split; [exact Ht|]. split.
  - unfold deposit_accepted. assert (El : map ev_payload (skipn 1 (sys_log s)) = [EvAcceptedDeposit x]).
    { apply (seen_is (fun s _ => map ev_payload (skipn 1 (sys_log s))) _ _ _ _ E). vm_compute. reflexivity. }
    assert (H : In (EvAcceptedDeposit x) (map ev_payload (skipn 1 (sys_log s)))) by (rewrite El; left; reflexivity).
    apply in_map_iff in H as (v & Ev & H). apply in_map_iff. exists v. split; [exact Ev|].
    rewrite <- (firstn_skipn 1 (sys_log s)). apply in_or_app. right. exact H.
  - intros s' ls' m Ht' Hm He. pose proof (C78_own_account self0 keccak0 nonce_kept s' ls' _ m Ht' Hm) as H. rewrite He in H. apply H. reflexivity.
Qed.
Print Assumptions C78_own_account_refuted.

(** The user approves the fee only. The call fails, and costs the fee. *)
Theorem C53_fee_lost_refuted :
  exists s ls s' ls' e, together self0 keccak0 nonce_kept s ls /\ together self0 keccak0 nonce_kept s' ls' /\
    joint s ls refused0 = Some (s', ls') /\
    In (sys_next s, OutNative (RErr (WeBurn e))) (sys_outcomes s') /\
    lg_balance (ls' native_ledger0) user_account + fee (sys_state s) = lg_balance (ls native_ledger0) user_account /\
    0 < fee (sys_state s).
Proof.
  assert (Hj : forall acts more s ls x, joint0 acts = Some (s, ls) -> joint0 (acts ++ more) = Some x -> joint s ls more = Some x).
  { intros acts more s ls x. unfold joint0. destruct start0 as [s0|]; [|discriminate].
    generalize s0 ledgers0. induction acts as [|a acts IH]; intros s1 ls1; cbn [app joint].
    - intros H1 H2. assert (s1 = s /\ ls1 = ls) as [<- <-] by (split; congruence). exact H2.
    - destruct (joint_step s1 ls1 a) as [[s2 ls2]|]; [|discriminate]. apply IH. }
  joint_of (before_approval ++ approve_fee) s ls E Ht. joint_of ((before_approval ++ approve_fee) ++ refused0) s' ls' E' Ht'.
  exists s, ls, s', ls', LeInsufficientAllowance. split; [exact Ht|]. split; [exact Ht'|]. split; [exact (Hj _ _ _ _ _ E E')|]. clear Hj.
  assert (E1 : (sys_next s, lg_balance (ls native_ledger0) user_account, fee (sys_state s)) = (3, 99998990, 500))
    by (apply (seen_is (fun s ls => (sys_next s, lg_balance (ls native_ledger0) user_account, fee (sys_state s))) _ _ _ _ E); vm_compute; reflexivity).
  assert (E2 : (lg_balance (ls' native_ledger0) user_account, sys_outcomes s') =
     (99998490, [(0, OutAdded); (1, OutTimer); (2, OutTimer); (3, OutNative (RErr (WeBurn LeInsufficientAllowance)))]))
    by (apply (seen_is (fun s ls => (lg_balance (ls native_ledger0) user_account, sys_outcomes s)) _ _ _ _ E'); vm_compute; reflexivity).
  injection E1 as -> -> ->. injection E2 as -> ->. split; [cbn; auto 6|]. split; reflexivity.
Qed.
Print Assumptions C53_fee_lost_refuted.
