(** * C86: the minter has one account, and it is the one it tells *)

From Coq Require Import String.
From Verif Require Import Base BMap MultiKeyMap Bytes Types Amount Tx CallData Network Hex Transactions State
  Audit Ranges Rlp Parser Memo Driver Sys SysSpec WithdrawSpec CborSpec TypedSpec Sign NetSpec SignSpec Key KeySpec KeyFacts
  Ask Keccak Lifting Scenario PropNet PropContract PropSign.
From Coq Require Import List NArith.
Import ListNotations.
Local Open Scope N_scope.

(** The address computed from a key is the account that the network gives to its owner. *)
Theorem C86_address_is_the_account :
  forall keccak Key encode (k : Key), ecdsa_public_key_to_address keccak Key encode k = account keccak encode k.
Proof. exact (fun h K e k => address_account [] h K (fun _ => None) e k). Qed.
Print Assumptions C86_address_is_the_account.

(** The public key is asked for, and signatures are asked for, by the key name of the
    installation and with the empty path, at every moment: the account cannot be changed by
    an upgrade, and the key that is asked for is the key that signs. *)
Theorem C86_key_that_signs :
  forall self keccak Key decode env menv (s : KSys Key), kreach self keccak Key decode env menv s ->
    exists n, key_name (history (sys_log (ks_sys s))) = Some n /\
      (forall r, In r (ks_waiting s) -> kr_name r = n /\ kr_path r = []) /\
      (forall t, sr_name (sign_request keccak (sys_state (ks_sys s)) t) = n /\
                 sr_path (sign_request keccak (sys_state (ks_sys s)) t) = []).
Proof.
  intros self keccak Key decode env menv s H. pose proof (sign_asked self keccak Key decode env menv s) as Hs.
  exists (ecdsa_key_name (sys_state (ks_sys s))). split; [|split].
  - exact (name_reach self keccak env _ (kreach_reach self keccak Key decode env menv s H)).
  - intros r Hr. destruct (asked_key self keccak Key decode env menv s r H Hr) as [H1 H2]. split; [|exact H2].
    rewrite (name_reach self keccak env _ (kreach_reach self keccak Key decode env menv s H)) in H1. congruence.
  - intros t. split; reflexivity.
Qed.
Print Assumptions C86_key_that_signs.

(** Whatever the management canister answers, no key that cannot be read is kept: telling the
    address never traps. *)
Theorem C86_address_never_traps :
  forall self keccak Key decode encode env menv (s : KSys Key), kreach self keccak Key decode env menv s ->
    exists o, minter_address keccak Key decode encode (ks_cache s) = Done o.
Proof. exact address_told. Qed.
Print Assumptions C86_address_never_traps.

(** What was told is never forgotten in [ks_told], and an address that [get_minter_info] shows is
    one that was told. So the next theorem speaks of all addresses at all times. *)
Theorem C86_told_forever :
  forall self keccak Key decode encode,
    (forall (s : KSys Key) l, exists more, ks_told (kstep self keccak Key decode s l) = ks_told s ++ more) /\
    (forall env menv s a, kreach self keccak Key decode env menv s ->
       minter_address keccak Key decode encode (ks_cache s) = Done (Some a) ->
       exists k, In k (ks_told s) /\ a = ecdsa_public_key_to_address keccak Key encode k).
Proof.
  intros self keccak Key decode encode. split; [exact (told_kept self keccak Key decode)|].
  exact (shown_told self keccak Key decode encode).
Qed.
Print Assumptions C86_told_forever.

(** If the management canister keeps its keys, then all who ever ask, before and after
    upgrades and however their questions overlap, are told the same key: the one kept under
    the key name of the installation. *)
Theorem C86_one_key :
  forall self keccak Key decode env pub (s : KSys Key), kreach self keccak Key decode env (keeps_keys pub) s ->
    (exists n, key_name (history (sys_log (ks_sys s))) = Some n /\ forall k, In k (ks_told s) -> decode (pub n []) = Some k) /\
    forall k k', In k (ks_told s) -> In k' (ks_told s) -> k = k'.
Proof.
  intros self keccak Key decode env pub s H. split; [|intros k k'; exact (told_same self keccak Key decode env pub s k k' H)].
  destruct (one_key_reach self keccak Key decode env pub s H) as (n & H1 & _ & _ & H2). exists n. auto.
Qed.
Print Assumptions C86_one_key.

(** If signatures are by that key, then every transaction recorded as signed is, to the network,
    a transaction from the account that users are told. *)
Theorem C86_sender_is_the_account_told :
  forall self keccak Key decode encode recovery_id recover, ids_recover Key recovery_id recover ->
    forall pub (key : Key) s, kreach self keccak Key decode (signing_env keccak Key recovery_id key) (keeps_keys pub) s ->
    typed_start keccak (ks_sys s) ->
    (forall n, key_name (history (sys_log (ks_sys s))) = Some n -> decode (pub n []) = Some key) ->
    forall b t, In (EvSignedTransaction b t) (history (sys_log (ks_sys s))) ->
    forall a, (exists k, In k (ks_told s) /\ a = ecdsa_public_key_to_address keccak Key encode k) \/
              minter_address keccak Key decode encode (ks_cache s) = Done (Some a) ->
      sent_from keccak encode recover a (st_tx t) (raw_bytes (st_tx t) (st_sig t)).
Proof. exact sender_told. Qed.
Print Assumptions C86_sender_is_the_account_told.

(** And the transaction counts, by which the minter judges which of its transactions are final,
    are asked for about that account: the sender of all its transactions. *)
Theorem C86_counts_of_the_sender :
  forall self keccak Key decode encode recovery_id recover, ids_recover Key recovery_id recover ->
    forall pub (key : Key) s, kreach self keccak Key decode (signing_env keccak Key recovery_id key) (keeps_keys pub) s ->
    typed_start keccak (ks_sys s) ->
    (forall n, key_name (history (sys_log (ks_sys s))) = Some n -> decode (pub n []) = Some key) ->
    forall keys k task q a tag, In k (ks_told s) ->
    In q (requests keys (ecdsa_public_key_to_address keccak Key encode k) (sys_state (ks_sys s)) task) ->
    rq_question q = GetTransactionCount a tag ->
    forall b t, In (EvSignedTransaction b t) (history (sys_log (ks_sys s))) ->
      sent_from keccak encode recover a (st_tx t) (raw_bytes (st_tx t) (st_sig t)).
Proof.
  intros self keccak Key decode encode rid rec Hi pub key s Hk Hst Hn keys k task q a tag Hin Hq Ha b t Hb.
  apply (sender_told self keccak Key decode encode rid rec Hi pub key s Hk Hst Hn b t Hb a). left. exists k. split; [exact Hin|].
  destruct task; cbn [requests] in Hq; try (destruct Hq as [<-|[]]; cbn [ask rq_question] in Ha);
    try (apply in_map_iff in Hq as (? & <- & _); cbn [ask rq_question] in Ha); try (destruct Hq; fail);
    first [discriminate Ha | injection Ha as <- _; reflexivity].
Qed.
Print Assumptions C86_counts_of_the_sender.

(** *** Witnesses. A curve library for examples: a key is a number, of 64 bytes behind a 4. *)
Definition dec86 (l : list N) : option N :=
  match l with 4 :: b => if Nat.eqb (List.length b) 64 then Some (of_be b) else None | _ => None end.
Definition enc86 (k : N) : list N := 4 :: be_bytes 64 k.
Definition pub86 (n : text) (p : list (list N)) : list N := enc86 11.
Definition krun86 (s : Sys) (ls : list KLabel) : KSys N :=
  fold_left (kstep self0 keccak0 N dec86) ls {| ks_sys := s; ks_cache := None; ks_waiting := []; ks_told := [] |}.

(** The key of the private key 1, by Keccak-256: its account is well known. *)
Example C86_known_account :
  address_to_text keccak256
    (ecdsa_public_key_to_address (fun m => of_be (keccak256 m)) (list N) (fun k => k)
      (bytes_of_hex "0479be667ef9dcbbac55a06295ce870b07029bfcdb2dce28d959f2815b16f81798483ada7726a3c4655da4fbfc0e1108a8fd17b448a68554199c47d08ffb10d4b8"%string))
  = text_of "0x7E5F4552091A69125d5DfCb7b8C2659029395Bdf".
Proof. vm_compute. reflexivity. Qed.

(** Two ask at once; a failure and bytes that are no key are told to nobody and not kept; after
    an upgrade the address is unknown until someone asks, and then the same. *)
Example C86_witness :
  exists s, sys_init 1 init0 = Done s /\
  let good := Some (pub86 [] []) in
  let ks1 := krun86 s [KLook; KLook; KLook; KReply 2 None; KReply 1 good] in
  let ks2 := kstep self0 keccak0 N dec86 (kstep self0 keccak0 N dec86 (kstep self0 keccak0 N dec86 ks1 (KReply 0 good)) KLook) (KMove (LUpgrade None 5)) in
  let ks3 := kstep self0 keccak0 N dec86 (kstep self0 keccak0 N dec86 ks2 KLook) (KReply 0 good) in
  let shown ks := minter_address keccak0 N dec86 enc86 (ks_cache ks) in
  (List.length (ks_waiting ks1) = 1%nat /\ shown ks1 = Done (Some (account keccak0 enc86 11))) /\
  (shown ks2 = Done None /\ ks_waiting ks2 = []) /\
  (shown ks3 = Done (Some (account keccak0 enc86 11)) /\ ks_told ks3 = [11; 11; 11; 11] /\
   kreach self0 keccak0 N dec86 nonce_kept (keeps_keys pub86) ks3) /\
  (let ks4 := krun86 s [KLook; KReply 0 (Some [1; 2])] in shown ks4 = Done None /\ ks_told ks4 = []).
Proof.
  destruct (sys_init 1 init0) as [s|] eqn:E; [|vm_compute in E; discriminate E]. exists s. split; [reflexivity|].
  assert (Hk : kreach self0 keccak0 N dec86 nonce_kept (keeps_keys pub86) {| ks_sys := s; ks_cache := None; ks_waiting := []; ks_told := [] |}).
  { exact (kreach_init _ _ _ _ _ _ 1 init0 s E). }
  assert (Hg : forall x i, kreach self0 keccak0 N dec86 nonce_kept (keeps_keys pub86) x ->
    kreach self0 keccak0 N dec86 nonce_kept (keeps_keys pub86) (kstep self0 keccak0 N dec86 x (KReply i (Some (pub86 [] []))))).
  { intros x i Hx. apply kreach_reply; [exact Hx|]. intros r _. reflexivity. }
  intros good ks1 ks2 ks3 shown.
  split; [|split; [|split]].
  - vm_compute in E. injection E as <-. split; vm_compute; reflexivity.
  - vm_compute in E. injection E as <-. split; vm_compute; reflexivity.
  - split; [|split].
    + vm_compute in E. injection E as <-. vm_compute; reflexivity.
    + vm_compute in E. injection E as <-. vm_compute; reflexivity.
    + apply Hg, kreach_look, kreach_move; [|exact Logic.I]. apply kreach_look, Hg.
      unfold ks1, krun86. cbn [fold_left]. apply Hg. apply kreach_reply; [|intros r _; exact Logic.I].
      apply kreach_look, kreach_look, kreach_look, Hk.
  - vm_compute in E. injection E as <-. split; vm_compute; reflexivity.
Qed.

(** Transactions are signed and recorded, and the address is told. *)
Example C86_sender_witness :
  exists s, kreach self0 keccak0 N dec86 (signing_env keccak0 N sum_id 11) (keeps_keys pub86) s /\ typed_start keccak0 (ks_sys s) /\
    (forall n, key_name (history (sys_log (ks_sys s))) = Some n -> dec86 (pub86 n []) = Some 11) /\
    (exists b t, In (EvSignedTransaction b t) (history (sys_log (ks_sys s)))) /\
    ks_told s = [11] /\ minter_address keccak0 N dec86 enc86 (ks_cache s) = Done (Some (account keccak0 enc86 11)).
Proof.
  destruct C82_witness as (_ & _ & _ & _ & s & txs & Hr & Hst & _ & _ & b & t & Hin).
  exists {| ks_sys := s; ks_cache := Some (pub86 [] []); ks_waiting := []; ks_told := [11] |}. cbn [ks_sys ks_told ks_cache].
  split; [|split; [exact Hst|split; [|split; [exists b, t; exact Hin|split]]]].
  - pose proof (reach_kreach self0 keccak0 N dec86 _ (keeps_keys pub86) s Hr) as K.
    apply kreach_look in K. apply (kreach_reply _ _ _ _ _ _ _ 0%nat (Some (pub86 [] []))) in K; [exact K|]. intros r _. reflexivity.
  - intros n _. vm_compute. reflexivity.
  - reflexivity.
  - vm_compute. reflexivity.
Qed.

(** Both counts are asked for, in the state of the witness above as in any other. *)
Example C86_counts_witness :
  forall keys s,
    let a := ecdsa_public_key_to_address keccak0 N enc86 11 in
    (exists q, In q (requests keys a s TRetrieveFinalizedCount) /\ rq_question q = GetTransactionCount a TagFinalized) /\
    forall e, exists q, In q (requests keys a s (TRetrieveCount e)) /\ rq_question q = GetTransactionCount a TagLatest.
Proof. intros keys s a. split; [|intros e]; eexists; split; try (left; reflexivity); reflexivity. Qed.
