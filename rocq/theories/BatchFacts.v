(** * Proofs for C22: what a batch of signatures leaves in the log *)

From Verif Require Import Base BMap MultiKeyMap Bytes Types Tx Network Rlp Transactions State Audit Driver Sys SysSpec WtInv
  Segments SysFacts CoreInv Lifting WithdrawSpec WithdrawFacts StageFacts QueueFacts ReadyFacts FinalizeFacts Views.
From Coq Require Import List NArith Lia.
Import ListNotations.
Local Open Scope N_scope.

Section Batch.
Variable self : Principal.
Variable keccak : list N -> Hash.

Lemma events_history now es : forall c c', process_events now es c = Done c' -> history (snd c') = history (snd c) ++ es.
Proof.
  induction es as [|e es IH]; intros c c' H.
  - injection H as <-. rewrite app_nil_r. reflexivity.
  - unfold process_events in H. cbn [rfold] in H. apply rbind_done in H as (c1 & H1 & H).
    apply process_event_inv in H1 as (s1 & _ & ->). rewrite (IH _ _ H). cbn [snd]. rewrite history_snoc, <- app_assoc. reflexivity.
Qed.
Lemma send_history n c c' nx : send_start n c = Done (c', nx) -> history (snd c') = history (snd c).
Proof.
  unfold send_start. assert (Hf : finalize_start c = Done (c', nx) -> history (snd c') = history (snd c)).
  { unfold finalize_start, end_timer. destruct (mkm_is_empty _); intros H; injection H as <- _; reflexivity. }
  destruct n as [n|]; [|exact Hf]. intros H. apply rbind_done in H as (l & _ & H). destruct l; [exact (Hf H)|].
  injection H as <- _. reflexivity.
Qed.
Lemma signed_events_iff batch : forall sigs e, In e (signed_events keccak batch sigs) <->
  exists i b t sg, nth_error batch i = Some (b, t) /\ nth_error sigs i = Some (Some sg) /\
    e = EvSignedTransaction b {| st_tx := t; st_sig := sg; st_hash := keccak (raw_bytes t sg) |}.
Proof.
  induction batch as [|[b t] batch IH]; intros sigs e.
  - split; [intros []|]. intros ([|i] & b & t & sg & H & _); discriminate H.
  - destruct sigs as [|o sigs].
    + split; [intros []|]. intros ([|i] & b' & t' & sg & _ & H & _); discriminate H.
    + assert (E : In e (signed_events keccak ((b, t) :: batch) (o :: sigs)) <->
        (exists sg, o = Some sg /\ e = EvSignedTransaction b (signed_tx keccak t sg)) \/ In e (signed_events keccak batch sigs)).
      { cbn [signed_events]. destruct o as [sg|]; cbn [In].
        - split; intros [H|H]; auto; [left; exists sg; auto|]. destruct H as (sg' & H & ->). injection H as <-. auto.
        - split; [auto|]. intros [(sg & H & _)|H]; [discriminate H|exact H]. }
      rewrite E, IH. split.
      * intros [(sg & -> & ->)|(i & b' & t' & sg & H1 & H2 & ->)].
        -- exists 0%nat, b, t, sg. auto.
        -- exists (S i), b', t', sg. auto.
      * intros ([|i] & b' & t' & sg & H1 & H2 & ->); cbn in H1, H2.
        -- injection H1 as <- <-. injection H2 as ->. left. exists sg. auto.
        -- right. exists i, b', t', sg. auto.
Qed.

Lemma batch_signed (env : Sys -> Label -> Prop) s id n batch sigs now : (forall s l, env s l -> nonce_kept s l) ->
  reach self keccak env s -> sys_clock s <= now ->
  bget id (sys_tasks s) = Some {| fl_task := TRetrieveSign n batch; fl_reply := Some (ReSigs sigs) |} ->
  exists es, history (sys_log (step self keccak s (LDeliver id false now))) = history (sys_log s) ++ es /\
    forall e, In e es <-> exists i b t sg, nth_error batch i = Some (b, t) /\ nth_error sigs i = Some (Some sg) /\
      e = EvSignedTransaction b {| st_tx := t; st_sig := sg; st_hash := keccak (raw_bytes t sg) |}.
Proof.
  intros He Hr Hn Hg. destruct (sign_total self keccak env s id n batch _ sigs now He Hr Hg) as (c & nx & H).
  rewrite (deliver_any self keccak s id _ _ now c nx Hn Hg H). unfold sys_log at 1. rewrite install_core'.
  exists (signed_events keccak batch sigs). split; [|apply signed_events_iff].
  cbn [resume] in H. unfold retrieve_sign_reply in H. apply rbind_done in H as (c1 & H1 & H).
  change (sys_core (with_queries (task_query (TRetrieveSign n batch) (ReSigs sigs)) (with_core c now s))) with c.
  rewrite (send_history _ _ _ _ H), (events_history _ _ _ _ H1). reflexivity.
Qed.
End Batch.
