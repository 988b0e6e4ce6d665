(** * C22: every signature of a batch is recorded, with its own transaction *)

From Verif Require Import Base BMap MultiKeyMap Bytes Types Tx Network Rlp Transactions State Audit Driver Sys SysSpec WithdrawSpec
  BatchFacts Scenario.
From Coq Require Import List NArith Lia.
Import ListNotations.
Local Open Scope N_scope.

(** When the signatures for a batch of transactions arrive, the log grows by exactly the
    transactions that could be signed, each with the signature given for it and with the hash of
    its bytes: a signature that fails holds up no other. *)
Theorem C22_each_signature_recorded :
  forall self keccak s id n batch sigs now,
    reach self keccak nonce_kept s -> sys_clock s <= now ->
    bget id (sys_tasks s) = Some {| fl_task := TRetrieveSign n batch; fl_reply := Some (ReSigs sigs) |} ->
    exists es, history (sys_log (step self keccak s (LDeliver id false now))) = history (sys_log s) ++ es /\
      forall e, In e es <-> exists i b t sg, nth_error batch i = Some (b, t) /\ nth_error sigs i = Some (Some sg) /\
        e = EvSignedTransaction b {| st_tx := t; st_sig := sg; st_hash := keccak (raw_bytes t sg) |}.
Proof. intros self keccak s id n batch sigs now. exact (batch_signed self keccak nonce_kept s id n batch sigs now (fun _ _ H => H)). Qed.
Print Assumptions C22_each_signature_recorded.

(** The hypotheses are met: of two transactions the first cannot be signed *)
Definition half22 : list Label :=
  register0 ++ scrape0 ++ mint0 ++ withdraw_native0 ++ withdraw_erc200 ++ create0 ++ [LAnswer 5 (ReSigs [None; Some sig0])].
Example C22_batch_witness :
  exists s n b1 t1 b2 t2, reach self0 keccak0 nonce_kept s /\ sys_clock s <= 62 /\ t1 <> t2 /\
    bget 5 (sys_tasks s) = Some {| fl_task := TRetrieveSign n [(b1, t1); (b2, t2)]; fl_reply := Some (ReSigs [None; Some sig0]) |} /\
    In (EvSignedTransaction b2 {| st_tx := t2; st_sig := sig0; st_hash := keccak0 (raw_bytes t2 sig0) |})
       (history (sys_log (step self0 keccak0 s (LDeliver 5 false 62)))).
Proof.
  destruct (run0 half22) as [s|] eqn:E; [|vm_compute in E; discriminate E].
  assert (Hr : reach self0 keccak0 nonce_kept s).
  { eapply reach_run0_quiet; [exact E|vm_compute; reflexivity|]. intros x [] H; try exact Logic.I. discriminate H. }
  assert (Hb : exists n b1 t1 b2 t2, t1 <> t2 /\ sys_clock s <= 62 /\
    bget 5 (sys_tasks s) = Some {| fl_task := TRetrieveSign n [(b1, t1); (b2, t2)]; fl_reply := Some (ReSigs [None; Some sig0]) |}).
  { vm_compute in E. injection E as <-. do 5 eexists. split; [|split; [|vm_compute; reflexivity]]; [discriminate|vm_compute; discriminate]. }
  destruct Hb as (n & b1 & t1 & b2 & t2 & Hne & Hc & Hg). exists s, n, b1, t1, b2, t2.
  split; [exact Hr|]. split; [exact Hc|]. split; [exact Hne|]. split; [exact Hg|].
  destruct (C22_each_signature_recorded self0 keccak0 s 5 n _ _ 62 Hr Hc Hg) as (es & -> & Hes). apply in_or_app. right.
  apply Hes. exists 1%nat, b2, t2, sig0. auto.
Qed.
