(** * C66: the public event list says what was recorded.

    [tells p e] (PublicSpec.v): read back as a client does, the public event [p] says what
    the recorded event [e] says. [keccak32] is the hash used for the checksum in the
    spelling of addresses; [keccak] the one for transaction hashes. *)

From Verif Require Import Base BMap MultiKeyMap Bytes Types Amount Tx CallData Network Hex
  Transactions State Audit Ranges Rlp RlpSpec Parser Memo Driver Sys SysSpec Scenario Cbor CborSpec
  TypedSpec TypedFacts EventFacts PublicEvents PublicSpec PublicFacts PropTyped.

(** Every recorded event is told as it is. *)
Theorem C66_told :
  forall keccak32, (forall l, List.length (keccak32 l) = 32%nat) ->
  forall (keccak : list N -> Hash) e, ok_event keccak e -> tells (public_event keccak32 e) e.
Proof. exact event_told. Qed.
Print Assumptions C66_told.

(** A public event does not fit two different events. *)
Theorem C66_one_meaning :
  forall (keccak : list N -> Hash) p e e', ok_event keccak e -> ok_event keccak e' ->
    whole (ev_payload e) -> whole (ev_payload e') -> tells p e -> tells p e' -> e = e'.
Proof. exact tells_fun. Qed.
Print Assumptions C66_one_meaning.

(** A page of the public list of any history tells the events of the log, in order, from the
    position asked for. *)
Theorem C66_page :
  forall keccak32, (forall l, List.length (keccak32 l) = 32%nat) ->
  forall keccak self s, reach self keccak typed_env s -> typed_start keccak s ->
  forall start size page total, start < 2 ^ 32 ->
    get_public_events keccak32 start size (sys_log s) = (page, total) ->
    total = N.of_nat (List.length (sys_log s)) /\
    N.of_nat (List.length page) = N.min (N.min size 100) (total - start) /\
    forall i p, nth_error page i = Some p ->
      exists e, nth_error (sys_log s) (N.to_nat start + i) = Some e /\ tells p e.
Proof. exact page_told. Qed.
Print Assumptions C66_page.

(** Nothing is left out: histories with the same public list have the same log. *)
Theorem C66_nothing_lost :
  forall keccak32, (forall l, List.length (keccak32 l) = 32%nat) ->
  forall keccak self s s', reach self keccak typed_nonce_kept s -> typed_start keccak s ->
    reach self keccak typed_nonce_kept s' -> typed_start keccak s' ->
    map (public_event keccak32) (sys_log s) = map (public_event keccak32) (sys_log s') ->
    sys_log s = sys_log s'.
Proof. exact logs_fun. Qed.
Print Assumptions C66_nothing_lost.

(** The field without a public counterpart, the transaction hash of a failed gas fee request,
    is never set. *)
Theorem C66_no_hash :
  forall keccak self s e r, reach self keccak any_env s -> In e (sys_log s) ->
    ev_payload e = EvFailedErc20WithdrawalRequest r -> rr_transaction_hash r = None.
Proof. exact no_hash. Qed.
Print Assumptions C66_no_hash.

(** ** The hypotheses are met *)

(** A history with deposits, withdrawals and reimbursements; its public list is shown in part:
    three events from the third on. *)
Definition checksum0 (l : list N) : list N := repeat 255 32.
Example C66_witness :
  (forall l, List.length (checksum0 l) = 32%nat) /\
  exists s, reach self0 keccak0 typed_nonce_kept s /\ typed_start keccak0 s /\
    exists page, get_public_events checksum0 2 3 (sys_log s) = (page, N.of_nat (List.length (sys_log s))) /\
      List.length page = 3%nat /\ map (public_event checksum0) (firstn 3 (skipn 2 (sys_log s))) = page.
Proof.
  split; [reflexivity|]. destruct C62_history_witness as (s & Hr & Ht & Hlen & _). exists s. split; [exact Hr|]. split; [exact Ht|].
  destruct (get_public_events checksum0 2 3 (sys_log s)) as [page total] eqn:E. exists page.
  unfold get_public_events in E. destruct (get_events 2 3 (sys_log s)) as [q t] eqn:Eq. injection E as <- <-.
  destruct (page_exact (sys_log s) 2 3 q t ltac:(reflexivity) Eq) as (Et & El & Hn).
  assert (El' : List.length q = 3%nat) by lia. split; [rewrite Et; reflexivity|]. rewrite map_length. split; [exact El'|]. f_equal.
  change (N.to_nat 2) with 2%nat in Hn.
  revert Hlen Hn. generalize (sys_log s). intros log Hlen Hn.
  do 5 (destruct log as [|? log]; [cbn in Hlen; lia|]).
  do 3 (destruct q as [|? q]; [discriminate|]). destruct q; [|discriminate]. cbn [firstn skipn].
  pose proof (Hn 0%nat ltac:(cbn; lia)) as H0. pose proof (Hn 1%nat ltac:(cbn; lia)) as H1. pose proof (Hn 2%nat ltac:(cbn; lia)) as H2.
  cbn in H0, H1, H2. congruence.
Qed.

(** A mint as a client sees it: the hash 255 in 64 hexadecimal digits. *)
Example C66_text_witness :
  let e := {| ev_timestamp := 5; ev_payload := EvMintedNative (255, 1) 9 |} in
  ok_event keccak0 e /\
  public_event checksum0 e =
    {| pe_timestamp := 5; pe_payload := PMintedNative
         {| ps_transaction_hash := [48; 120] ++ repeat 48 62 ++ [102; 102]; ps_log_index := 1 |} 9 |}.
Proof. vm_compute. repeat split. Qed.
