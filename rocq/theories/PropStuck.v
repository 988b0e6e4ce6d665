(** * C70: a deposit of a token that is not registered stops the minter *)

From Verif Require Import Base BMap MultiKeyMap Types Amount State Audit Parser Driver Sys SysSpec
  DepositSpec ScrapeSpec TokenSpec ParserSpec FoundSpec StuckSpec ParserFacts FoundFacts StuckFacts Scenario PropFound.
From Coq Require Import List NArith Lia.
Import ListNotations.
Local Open Scope N_scope.

(** Anyone can deposit a token that is not registered. The log of such a deposit is [e], in
    block [b]. Providers tell the truth and no token is registered. Then, whatever happens
    otherwise, the minter never gets past block [b]: none of the deposits of this block or of
    later ones is ever recorded. *)
Theorem C70_unregistered_token_stops :
  forall self keccak block_of e b block tx index x s ls,
    wire e -> mined e block tx index -> le_removed e = false -> encodes e x -> dl_token x <> 0 ->
    reach self keccak (complete_chain block_of e b) s ->
    all_along (complete_chain block_of e b) self keccak s ls ->
    last_scraped_block_number (sys_state s) < b ->
    let s' := run self keccak s ls in
    last_scraped_block_number (sys_state s') < b /\
    forall src, b <= block_of src -> ~ known (sys_state s') src.
Proof. exact stuck. Qed.
Print Assumptions C70_unregistered_token_stops.

(** The hypotheses are met: the native deposit of block 105 is reported, and lost, with the
    deposit of the unregistered token 187 of block 104; block 103 alone can be scraped. *)
Definition log70 : LogEntry := deposit_log 22 2 104 187 5000 221 user0.
Definition both70 : list LogEntry := [log70; deposit_log 33 3 105 0 70000 221 user0].
Definition stuck70 : list Label :=
  LTimer TimerScrape 20 :: ans 0 (ReBlock (Some 103)) 21 ++ ans 0 (ReLogs (LogsOk [])) 22 ++
  LTimer TimerScrape 30 :: ans 1 (ReBlock (Some 105)) 31 ++ ans 1 (ReLogs (LogsOk both70)) 32.
Lemma along_nil env self keccak s : all_along env self keccak s [].
Proof. intros l1 l l2 H. destruct l1; discriminate H. Qed.
Lemma along_cons (env : Sys -> Label -> Prop) self keccak s l ls : env s l ->
  all_along env self keccak (step self keccak s l) ls -> all_along env self keccak s (l :: ls).
Proof.
  intros H Ha [|k l1] m l2 E; injection E as <- E; [exact H|]. change (run self keccak s (l :: l1)) with (run self keccak (step self keccak s l) l1).
  exact (Ha _ _ _ E).
Qed.
Example C70_stops_witness :
  exists s x, wire log70 /\ mined log70 104 22 2 /\ le_removed log70 = false /\ encodes log70 x /\ dl_token x = 187 /\
    reach self0 keccak0 (complete_chain block70 log70 104) s /\
    all_along (complete_chain block70 log70 104) self0 keccak0 s stuck70 /\
    last_scraped_block_number (sys_state s) = 100 /\
    last_scraped_block_number (sys_state (run self0 keccak0 s stuck70)) = 103 /\
    In (1, OutTrap) (sys_outcomes (run self0 keccak0 s stuck70)) /\ sys_tasks (run self0 keccak0 s stuck70) = [].
Proof.
  assert (Hw : wire log70) by (apply wire_ok; vm_compute; reflexivity).
  assert (Hx : exists x, encodes log70 x /\ dl_token x = 187).
  { destruct (parse_log log70) as [[d|]|] eqn:Ep; [|vm_compute in Ep; discriminate Ep|vm_compute in Ep; discriminate Ep].
    apply (parse_log_ok _ _ Hw) in Ep as Ep'. destruct Ep' as (x & bl & tx & i & _ & _ & He & Hd). exists x. split; [exact He|].
    vm_compute in Ep. injection Ep as <-. unfold deposit_of in Hd. destruct (dl_token x =? 0); [discriminate Hd|].
    injection Hd as _ _ _ _ _ _ Ht _. symmetry. exact Ht. }
  destruct Hx as (x & Hx & Ht).
  destruct (sys_init 1 init0) as [s|] eqn:E; [|vm_compute in E; discriminate E].
  assert (Hr : reach self0 keccak0 (complete_chain block70 log70 104) s) by (econstructor; exact E).
  exists s, x. split; [exact Hw|]. split; [vm_compute; intuition discriminate|]. split; [reflexivity|]. split; [exact Hx|].
  split; [exact Ht|]. split; [exact Hr|]. clear Hr Hw Hx Ht. vm_compute in E. injection E as <-.
  split.
  { unfold stuck70, ans. cbn [app].
    repeat (apply along_cons; [|try (match goal with |- all_along _ _ _ ?s _ => let v := eval vm_compute in s in change s with v end)]); [..|apply along_nil].
    all: try (split; [split; [split; [vm_compute; auto|exact Logic.I]|exact Logic.I]|exact Logic.I]).
    - split; [split; [split; exact Logic.I|split; [intros y []|]]|].
      + intros j r _. split; [constructor|intros src []].
      + intros j r Hb. vm_compute in Hb. injection Hb as <- _. cbn. lia.
    - split; [split; [split; exact Logic.I|split]|].
      + intros y Hy. apply wire_ok. assert (Hb : forallb wire_b both70 = true) by (vm_compute; reflexivity).
        rewrite forallb_forall in Hb. exact (Hb _ Hy).
      + intros j r Hb. vm_compute in Hb. injection Hb as <- _. split.
        * vm_compute. repeat constructor; cbn; intuition discriminate.
        * intros src Hin. vm_compute in Hin. repeat (destruct Hin as [<-|Hin]; [vm_compute; split; discriminate|]). destruct Hin.
      + intros j r _ _ _. left. reflexivity. }
  split; [vm_compute; reflexivity|]. split; [vm_compute; reflexivity|].
  split; [apply nth_error_In with (n := 1%nat); vm_compute; reflexivity|vm_compute; reflexivity].
Qed.
