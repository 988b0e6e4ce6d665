(** * C85: what the minter asks about the chain, and of whom *)

From Coq Require Import String.
From Verif Require Import Base BMap MultiKeyMap Bytes Types Hex Network Rlp Tx Parser State Driver Sys SysSpec WithdrawSpec
  ScrapeSpec TokenSpec InfoSpec Lifting PublicEvents Ask AskSpec AskFacts Scenario.
From Coq Require Import List NArith Lia.
Import ListNotations.
Local Open Scope N_scope.

(** Every request goes to the canister named last, and asks for providers of the configured
    network: at least one, none twice, two or more where the answer is not taken from one
    alone. Each is reached over https at its own host, and is given no key but its own. *)
Theorem C85_asked_of_own_providers :
  forall self keccak env keys minter s t q,
    reach self keccak env s -> In q (requests keys minter (sys_state s) t) ->
    rpc_canister (history (sys_log s)) = Some (rq_canister q) /\
    exists c, configured (history (sys_log s)) = Some c /\
      rs_chain_id (rq_services q) = chain_id (cf_network c) /\
      rs_urls (rq_services q) <> [] /\ NoDup (rs_urls (rq_services q)) /\
      (shared (rq_question q) = true -> (2 <= List.length (rs_urls (rq_services q)))%nat) /\
      forall u, In u (rs_urls (rq_services q)) -> begins (text_of "https://") u /\ exists p, own_url keys p u.
Proof. exact asked_of. Qed.
Print Assumptions C85_asked_of_own_providers.

(** Two minters that ask at the same URL are minters of the same network: no endpoint of
    another network is ever taken for one of the minter's own. *)
Theorem C85_endpoints_told_apart :
  forall self keccak env minter s t q self' keccak' env' minter' s' t' q' keys u c c',
    reach self keccak env s -> In q (requests keys minter (sys_state s) t) -> In u (rs_urls (rq_services q)) ->
    reach self' keccak' env' s' -> In q' (requests keys minter' (sys_state s') t') -> In u (rs_urls (rq_services q')) ->
    configured (history (sys_log s)) = Some c -> configured (history (sys_log s')) = Some c' ->
    cf_network c = cf_network c'.
Proof. exact one_network. Qed.
Print Assumptions C85_endpoints_told_apart.

(** Whatever a function of the minter waits for, it has asked about the minter's own matters *)
Theorem C85_own_questions :
  forall self keccak keys minter s t q,
    reach self keccak asking_env s -> running s t -> In q (requests keys minter (sys_state s) t) ->
    own_question minter s (rq_question q).
Proof. exact requests_own. Qed.
Print Assumptions C85_own_questions.

(** When a function asks for logs for the first time, it asks for those of every token that is
    registered ... *)
Theorem C85_all_tokens_asked_for :
  forall self keccak env keys minter s l id f f' q,
    reach self keccak env s -> env s l ->
    let s' := step self keccak s l in
    bget id (sys_tasks s) = Some f ->
    (forall q, In q (requests keys minter (sys_state s) (fl_task f)) -> filter_of (rq_question q) = None) ->
    bget id (sys_tasks s') = Some f' -> In q (requests keys minter (sys_state s') (fl_task f')) ->
    forall addresses topics, filter_of (rq_question q) = Some (addresses, topics) ->
    exists tokens, topics = [[DEPOSIT_TOPIC]; map (fun a => repeat 0 12 ++ be_bytes 20 a) tokens] /\
      forall a, In a tokens <-> exists ledger symbol, listed (sys_state s') ledger a symbol.
Proof. intros; eapply first_filter; eauto. Qed.
Print Assumptions C85_all_tokens_asked_for.

(** ... and goes on to ask for the same *)
Theorem C85_same_filter :
  forall self keccak env keys minter s l id f f' q q' x x',
    reach self keccak env s ->
    let s' := step self keccak s l in
    bget id (sys_tasks s) = Some f -> In q (requests keys minter (sys_state s) (fl_task f)) ->
    filter_of (rq_question q) = Some x ->
    bget id (sys_tasks s') = Some f' -> In q' (requests keys minter (sys_state s') (fl_task f')) ->
    filter_of (rq_question q') = Some x' ->
    x' = x.
Proof. intros self keccak env keys minter s l id f f' q q' x x' Hr s' H1 H2 H3 H4 H5 H6. exact (next_filter self keccak env keys minter s l id f f' q q' x x' Hr H1 H2 H3 H4 H5 H6). Qed.
Print Assumptions C85_same_filter.

(** Each kind of question is asked: in the run of Scenario.v, on Sepolia, with keys for two
    providers *)
Definition keys85 : Keys := init_keys (text_of "k1") (text_of "k2").
Definition asked85 (ls : list Label) : list Request :=
  match run0 ls with
  | Done s => flat_map (fun x => requests keys85 7 (sys_state s) (fl_task (snd x))) (sys_tasks s)
  | Panic _ => []
  end.
Definition quiet85 (l : Label) : bool :=
  match l with LUpgrade _ _ => false | LAnswer _ (ReBlock (Some n)) => n <=? 1000 | _ => true end.
Lemma asked85_real ls q : forallb quiet85 ls = true -> In q (asked85 ls) ->
  exists s t, reach self0 keccak0 asking_env s /\ running s t /\ In q (requests keys85 7 (sys_state s) t).
Proof.
  intros Hq H. unfold asked85 in H. destruct (run0 ls) as [s|] eqn:E; [|destruct H].
  apply in_flat_map in H as ([id [t r]] & Hin & H). exists s, t.
  assert (Hr : reach self0 keccak0 asking_env s).
  { refine (reach_run0 _ ls s E _). rewrite forallb_forall in Hq. intros x l Hl. specialize (Hq l Hl).
    destruct l as [| |id' r'| |]; try (split; exact Logic.I); [|discriminate Hq].
    split; [exact Logic.I|]. destruct r'; try exact Logic.I. destruct r0; [|exact Logic.I]. cbn in Hq |- *.
    apply N.leb_le in Hq. apply (N.le_lt_trans _ _ _ Hq). vm_compute. reflexivity. }
  split; [exact Hr|]. split; [|exact H]. exists id, r. apply bget_iff_In; [|exact Hin].
  exact (SysFacts.ids_sorted _ (SysFacts.ids_reach _ _ _ _ Hr)).
Qed.
Definition runs85 : list (list Label) :=
  [register0 ++ firstn 1 scrape0; register0 ++ firstn 3 scrape0;
   register0 ++ scrape0 ++ mint0 ++ withdraw_native0 ++ firstn 1 withdraw_erc200;
   register0 ++ scrape0 ++ mint0 ++ withdraw_native0 ++ withdraw_erc200 ++ firstn 1 create0;
   register0 ++ scrape0 ++ mint0 ++ withdraw_native0 ++ withdraw_erc200 ++ create0 ++ sign0;
   up_to_sent; up_to_sent ++ firstn 2 finalize0].
Example C85_witness :
  forallb (forallb quiet85) runs85 = true /\
  map (fun ls => map (fun q => match rq_question q with
      | GetBlockByNumber _ => 1 | GetLogs _ _ _ _ => 2 | FeeHistoryOf _ _ _ => 3
      | GetTransactionCount _ _ => 4 | SendRawTransaction _ => 5 | GetTransactionReceipt _ => 6 end) (asked85 ls)) runs85 =
    [[1]; [2]; [3]; [4]; [5; 5]; [4]; [6]] /\
  map (fun q => rs_urls (rq_services q)) (asked85 (register0 ++ firstn 3 scrape0)) =
    [[text_of "https://rpc.ankr.com/eth_sepolia/k1"; text_of "https://ethereum-sepolia-rpc.publicnode.com"]].
Proof. split; [vm_compute; reflexivity|]. split; vm_compute; reflexivity. Qed.

(** The hypotheses about the filter are met: a first request, and a second one after the first
    was answered *)
Definition filters85 (ls : list Label) : list (N * list (option (list Address * list (list (list N))))) :=
  match run0 ls with
  | Done s => map (fun x => (fst x, map (fun q => filter_of (rq_question q)) (requests keys85 7 (sys_state s) (fl_task (snd x))))) (sys_tasks s)
  | Panic _ => []
  end.
Definition far85 : list Label := LTimer TimerScrape 20 :: ans 1 (ReBlock (Some 5000)) 21 ++ ans 1 (ReLogs (LogsOk [])) 22.
Definition filter85 : option (list Address * list (list (list N))) :=
  Some ([170], [[DEPOSIT_TOPIC]; [repeat 0 31 ++ [187]]]).
Example C85_filter_witness :
  filters85 (register0 ++ firstn 2 far85) = [(1, [None])] /\
  filters85 (register0 ++ firstn 3 far85) = [(1, [filter85])] /\
  filters85 (register0 ++ firstn 4 far85) = [(1, [filter85])] /\
  filters85 (register0 ++ far85) = [(1, [filter85])].
Proof. repeat (split; [vm_compute; reflexivity|]). vm_compute. reflexivity. Qed.
