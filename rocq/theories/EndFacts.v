(** * Facts for C72 *)

From Verif Require Import Base BMap MultiKeyMap Types Amount Transactions State Audit Driver Sys SysSpec SysFacts Segments
  Tasks CallFacts CallStages EndSpec.
From Coq Require Import List NArith Lia Bool.
Import ListNotations.
Local Open Scope N_scope.

Section Ends.
Variable self : Principal.
Variable keccak : list N -> Hash.

Lemma finalize_small c c' t : finalize_start c = Done (c', Await t) -> most_answers t = 2 /\ is_scrape t = false.
Proof.
  unfold finalize_start, end_timer. destruct (mkm_is_empty _); intros H; [discriminate|].
  injection H as _ <-. auto.
Qed.
Lemma send_small n c c' t : send_start n c = Done (c', Await t) -> most_answers t <= 3 /\ is_scrape t = false.
Proof.
  unfold send_start. destruct n as [n|].
  - intros H. apply rbind_done in H as (txs & _ & H). destruct txs.
    + apply finalize_small in H as [-> ->]. split; [lia|reflexivity].
    + injection H as _ <-. cbn. split; [lia|reflexivity].
  - intros H. apply finalize_small in H as [-> ->]. split; [lia|reflexivity].
Qed.

(** Facts of CallFacts, freed of the call they are stated about there. *)
Lemma quiet_one s l id : ids_ok s -> id < sys_next s -> quiet id l ->
  bget id (sys_tasks (step self keccak s l)) = bget id (sys_tasks s) /\
  (forall o, In (id, o) (sys_outcomes (step self keccak s l)) <-> In (id, o) (sys_outcomes s)) /\
  sys_next s <= sys_next (step self keccak s l).
Proof.
  apply (quiet_step self keccak (sys_state s) id (fun _ _ _ _ => False) (fun _ _ _ _ => True)).
  - intros ? ? ? ? ? ? ? ? ? _ H. destruct H.
  - intros ? ? ? ? ? H. destruct H.
Qed.
Lemma next_one s l : sys_next s <= sys_next (step self keccak s l).
Proof.
  apply (next_mono self keccak (sys_state s) 0 (fun _ _ _ _ => False) (fun _ _ _ _ => True)).
  - intros ? ? ? ? ? ? ? ? ? _ H. destruct H.
  - intros ? ? ? ? ? H. destruct H.
Qed.

Definition batch_stage (t : Task) : bool :=
  match t with
  | TRetrieveCount _ | TRetrieveSign _ _ | TRetrieveSend _ | TRetrieveFinalizedCount | TRetrieveReceipts _ | TRetrieveFee => true
  | _ => false
  end.
Lemma fewer_batch now t r c c' t' : resume keccak now t r c = Done (c', Await t') -> batch_stage t = true ->
  most_answers t' < most_answers t /\ is_scrape t' = false.
Proof.
  intros H Hs. pose proof (resume_after keccak now t r c c' (Await t') H) as A. cbn [after] in A.
  destruct t; try discriminate Hs; clear Hs; destruct r; try discriminate H; cbn [resume] in H.
  - unfold retrieve_fee_reply in H.
    match type of H with (let (_, _) := ?p in _) = _ => destruct p as [s0 [g|]] end; [|discriminate].
    injection H as _ <-. cbn. split; [lia|reflexivity].
  - unfold retrieve_count_reply in H.
    apply rbind_done in H as (c1 & _ & H). apply rbind_done in H as (c2 & _ & H). unfold sign_start in H.
    apply rbind_done in H as (b & _ & H). destruct b.
    + apply send_small in H as [H1 ->]. cbn. split; [lia|reflexivity].
    + injection H as _ <-. cbn. split; [lia|reflexivity].
  - unfold retrieve_sign_reply in H.
    apply rbind_done in H as (c1 & _ & H). apply send_small in H as [H1 ->]. cbn. split; [lia|reflexivity].
  - apply finalize_small in H as [-> ->]. cbn. split; [lia|reflexivity].
  - unfold retrieve_finalized_count_reply, end_timer in H. destruct r; [|discriminate].
    apply rbind_done in H as (h & _ & H). destruct h; [discriminate|]. injection H as _ <-. cbn. split; [lia|reflexivity].
  - unfold retrieve_receipts_reply, end_timer in H. destruct (collect_receipts hashes l []); [|discriminate].
    apply rbind_done in H as (u & _ & H). apply rbind_done in H as (c1 & _ & H). discriminate.
Qed.

Lemma fewer now t r c c' t' : resume keccak now t r c = Done (c', Await t') -> is_scrape t = false ->
  most_answers t' < most_answers t /\ is_scrape t' = false.
Proof.
  intros H Hs. destruct (batch_stage t) eqn:Eb; [exact (fewer_batch _ _ _ _ _ _ H Eb)|].
  pose proof (resume_after keccak now t r c c' (Await t') H) as A. cbn [after] in A. clear H.
  destruct t'; cbn [next_spec is_retrieve] in A |- *.
  - destruct A as (j0 & Hj & Hm). apply mint_next_inv in Hm as [(_ & _ & E)|(_ & j1 & E & _ & _ & Er)]; [discriminate|].
    injection E as <-. destruct Hj as [->|(b & ->)]; cbn; rewrite Er; cbn [List.length]; split; try reflexivity; lia.
  - destruct A as (-> & _). cbn. split; [lia|reflexivity].
  - destruct A as (l0 & i0 & q0 & -> & _). cbn [most_answers List.length]. split; [lia|reflexivity].
  - destruct A as (m & o & -> & _). discriminate.
  - destruct A as [(n & o & la & -> & _)|(j0 & a & -> & _)]; discriminate.
  - destruct A.
  - subst t. discriminate.
  - destruct A as (_ & g & -> & _). discriminate.
  - destruct A as (E & _). destruct t; discriminate.
  - destruct t; discriminate.
  - destruct A as (-> & _). discriminate.
  - destruct A.
  - destruct A as (j0 & b & fee & -> & _). cbn. split; [lia|reflexivity].
  - destruct A as (j0 & x & fee & -> & _). cbn. split; [lia|reflexivity].
  - destruct A.
  - destruct A as (j0 & h & g & -> & _). cbn. split; [lia|reflexivity].
  - destruct A as [(j0 & h & g & -> & _)|(j0 & b & -> & _)]; cbn; (split; [lia|reflexivity]).
  - destruct A as (-> & _). cbn. split; [lia|reflexivity].
  - destruct A as (j0 & x & fee & _ & _ & _ & _ & _ & _ & [(-> & _)|(i & -> & _)]); cbn; (split; [lia|reflexivity]).
  - destruct A.
Qed.

(** ** In the system *)

Definition going (s : Sys) (id n : N) : Prop :=
  exists t r, bget id (sys_tasks s) = Some {| fl_task := t; fl_reply := r |} /\ is_scrape t = false /\ most_answers t <= n /\
    forall o, ~ In (id, o) (sys_outcomes s).

Lemma most_pos t : is_scrape t = false -> 1 <= most_answers t.
Proof. destruct t; try discriminate; cbn [most_answers]; lia. Qed.

Lemma end_step s l id : ids_ok s -> id < sys_next s -> ended s id ->
  ended (step self keccak s l) id /\ hands s id l = false.
Proof.
  intros Hi Hlt (Hn & o & Ho).
  assert (Hh : hands s id l = false).
  { destruct l; try reflexivity. cbn [hands]. destruct (id0 =? id) eqn:E; [|reflexivity]. rewrite Hn.
    rewrite andb_false_r. reflexivity. }
  split; [|exact Hh].
  destruct l as [k now|u now|i r|i trap now|a now].
  1,2,5: match goal with |- ended (step _ _ _ ?l) _ => destruct (quiet_one s l id Hi Hlt Logic.I) as (H1 & H2 & _) end; split; [congruence|]; exists o; intros o'; rewrite H2; apply Ho.
  - destruct (N.eq_dec i id) as [->|Hne].
    + cbn [step]. rewrite Hn. split; eauto.
    + destruct (quiet_one s (LAnswer i r) id Hi Hlt Hne) as (H1 & H2 & _); split; [congruence|]; exists o; intros o'; rewrite H2; apply Ho.
  - destruct (N.eq_dec i id) as [->|Hne].
    + cbn [step]. destruct (now <? sys_clock s); [split; eauto|]. rewrite Hn. split; eauto.
    + destruct (quiet_one s (LDeliver i trap now) id Hi Hlt Hne) as (H1 & H2 & _); split; [congruence|]; exists o; intros o'; rewrite H2; apply Ho.
Qed.

Lemma go_step s l id n : ids_ok s -> id < sys_next s -> going s id n ->
  let s' := step self keccak s l in
  (hands s id l = false /\ going s' id n) \/ (hands s id l = true /\ (going s' id (n - 1) \/ ended s' id)).
Proof.
  intros Hi Hlt (t & r & Hb & Hs & Hm & Hno). cbv zeta.
  assert (Hq : quiet id l -> hands s id l = false /\ going (step self keccak s l) id n).
  { intros Q. destruct (quiet_one s l id Hi Hlt Q) as (H1 & H2 & _). split.
    - destruct l; try reflexivity. cbn in Q. cbn [hands]. destruct (N.eqb_spec id0 id); [congruence|reflexivity].
    - exists t, r. rewrite H1. repeat split; auto. intros o Ho. apply H2 in Ho. exact (Hno _ Ho). }
  destruct l as [k now|u now|i a|i trap now|a now]; try (left; apply Hq; exact Logic.I).
  - destruct (N.eq_dec i id) as [->|Hne]; [|left; apply Hq; exact Hne]. left. split; [reflexivity|].
    assert (K : sys_outcomes (step self keccak s (LAnswer id a)) = sys_outcomes s /\
      exists r', bget id (sys_tasks (step self keccak s (LAnswer id a))) = Some {| fl_task := t; fl_reply := r' |}).
    { cbn [step]. rewrite Hb. destruct r as [r|]; [eauto|]. destruct (reply_fits self t a); [|eauto].
      destruct (task_call self t) as [cl|]; [|cbn; rewrite bget_insert_eq; eauto].
      destruct a as [[b| |]| | | | | | |]; try (cbn; rewrite bget_insert_eq; eauto).
      destruct (ledger_allows self (sys_ops s) cl b); cbn; rewrite ?bget_insert_eq; eauto. }
    destruct K as (K1 & r' & K2). exists t, r'. rewrite K1, K2. auto.
  - destruct (N.eq_dec i id) as [->|Hne]; [|left; apply Hq; exact Hne].
    cbn [hands]. rewrite N.eqb_refl, Hb. cbn [andb].
    destruct (N.leb_spec (sys_clock s) now) as [Hc|Hc].
    2: { left. split; [reflexivity|]. cbn [step]. destruct (N.ltb_spec now (sys_clock s)); [|lia]. exists t, r. auto. }
    destruct r as [r|].
    2: { left. split; [reflexivity|]. cbn [step]. destruct (N.ltb_spec now (sys_clock s)); [lia|]. rewrite Hb. exists t, None. auto. }
    right. split; [reflexivity|]. cbn [step]. destruct (N.ltb_spec now (sys_clock s)); [lia|]. rewrite Hb. unfold deliver.
    assert (Hend : forall c o, ended (install id (Finish o) (with_core c now s)) id).
    { intros c o. split.
      - rewrite install_tasks. rewrite keqb_refl. reflexivity.
      - exists o. intros o'. rewrite install_outcomes. cbn. rewrite in_app_iff. split.
        + intros [H0|[E|[]]]; [destruct (Hno _ H0)|congruence].
        + intros ->. right. left. reflexivity. }
    destruct (if trap then Panic "trap" else resume keccak now t r (sys_core s)) as [[c nx]|m] eqn:E.
    + destruct trap; [discriminate|]. destruct nx as [t'|o].
      * left. destruct (fewer _ _ _ _ _ _ E Hs) as (F1 & F2). exists t', None.
        split; [cbn; apply bget_insert_eq|]. split; [exact F2|]. split; [lia|]. exact Hno.
      * right. split.
        -- rewrite install_tasks. rewrite keqb_refl. reflexivity.
        -- exists o. intros o'. rewrite install_outcomes. cbn. rewrite in_app_iff. split.
           ++ intros [H0|[E0|[]]]; [destruct (Hno _ H0)|congruence].
           ++ intros ->. right. left. reflexivity.
    + right. apply Hend.
Qed.

Lemma go_run ls : forall s id n, ids_ok s -> id < sys_next s ->
  (going s id n -> let s' := run self keccak s ls in
     ended s' id /\ received self keccak s id ls <= n \/ suspended s' id /\ received self keccak s id ls < n) /\
  (ended s id -> ended (run self keccak s ls) id /\ received self keccak s id ls = 0).
Proof.
  induction ls as [|l ls IH]; intros s id n Hi Hlt.
  - cbn. split.
    + intros (t & r & Hb & Hs & Hm & _). right. split; [unfold suspended; rewrite Hb; discriminate|].
      pose proof (most_pos t Hs). lia.
    + auto.
  - cbn [run fold_left received]. fold (run self keccak (step self keccak s l) ls).
    assert (Hi' : ids_ok (step self keccak s l)) by (eapply ids_step; [exact Hi|apply step_trans]).
    assert (Hlt' : id < sys_next (step self keccak s l)) by (pose proof (next_one s l); lia).
    split.
    + intros Hg. pose proof (go_step s l id n Hi Hlt Hg) as [(-> & G)|(-> & [G|G])].
      * destruct (IH _ id n Hi' Hlt') as (A & _). exact (A G).
      * destruct (IH _ id (n - 1) Hi' Hlt') as (A & _). destruct Hg as (t & r & _ & Hs & Hm & _). pose proof (most_pos t Hs).
        destruct (A G) as [(B & C)|(B & C)]; [left|right]; (split; [exact B|lia]).
      * destruct (IH _ id n Hi' Hlt') as (_ & A). destruct (A G) as (B & C). left. split; [exact B|].
        destruct Hg as (t & r & _ & Hs & Hm & _). pose proof (most_pos t Hs). lia.
    + intros He. destruct (end_step s l id Hi Hlt He) as (E & ->). destruct (IH _ id n Hi' Hlt') as (_ & A).
      destruct (A E) as (B & ->). auto.
Qed.

Lemma no_outcome (env : Sys -> Label -> Prop) s id fl : reach self keccak env s -> bget id (sys_tasks s) = Some fl ->
  forall o, ~ In (id, o) (sys_outcomes s).
Proof.
  intros Hr. revert id fl.
  apply (reach_inv2 self keccak env (fun s => ids_ok s /\ (forall i o, In (i, o) (sys_outcomes s) -> i < sys_next s))
    (fun s => forall id fl, bget id (sys_tasks s) = Some fl -> forall o, ~ In (id, o) (sys_outcomes s))); [| | |exact Hr].
  - intros s0 H. split; [exact (ids_reach self keccak env s0 H)|exact (outcomes_reach self keccak env s0 H)].
  - intros now a s0 H id fl _ o Ho. apply sys_init_inv in H as (st & _ & _ & _ & _ & _ & _ & _ & E & _). rewrite E in Ho. destruct Ho.
  - intros s0 l s' (Hi & Hout) _ Hs _ H. assert (Hlt : forall i fl, bget i (sys_tasks s0) = Some fl -> i < sys_next s0) by apply Hi.
    clear Hi. destruct H as [|k now c nx Hc H|u now c nx Hc H|k now Hc|u now Hc|i t c b Hget Hcall Hallow
    |i t r Hget Hfit Hno|i now t r c nx Hc Hget H|i trap now t r c Hc Hget Hp H|a now c Hc Ht H]; auto.
    all: intros i0 fl0; cbn [bump_next sys_tasks sys_outcomes with_core]; rewrite ?install_tasks, ?install_outcomes; cbn [bump_next sys_tasks sys_outcomes with_core].
    all: try solve [destruct (keqb_spec i0 i) as [->|Hne]; [rewrite bget_insert_eq; intros _; exact (Hs _ _ Hget)|rewrite bget_insert_ne by congruence; apply Hs]].
    all: unfold answered; cbn [sys_tasks sys_outcomes with_op with_tasks with_call with_outcome with_queries with_core].
    + destruct (keqb_spec i0 (sys_next s0)) as [->|Hne].
      * destruct nx; [|discriminate]. intros _ o. rewrite app_nil_r. intros Ho. apply Hout in Ho. lia.
      * intros Hb o. rewrite in_app_iff. intros [Ho|Ho]; [exact (Hs _ _ Hb _ Ho)|].
        destruct nx; [destruct Ho|destruct Ho as [E|[]]; congruence].
    + destruct (keqb_spec i0 (sys_next s0)) as [->|Hne].
      * destruct nx; [|discriminate]. intros _ o. rewrite app_nil_r. intros Ho. apply Hout in Ho. lia.
      * intros Hb o. rewrite in_app_iff. intros [Ho|Ho]; [exact (Hs _ _ Hb _ Ho)|].
        destruct nx; [destruct Ho|destruct Ho as [E|[]]; congruence].
    + intros Hb o. rewrite in_app_iff. intros [Ho|[E|[]]]; [exact (Hs _ _ Hb _ Ho)|]. apply Hlt in Hb. injection E as E _. lia.
    + intros Hb o. rewrite in_app_iff. intros [Ho|[E|[]]]; [exact (Hs _ _ Hb _ Ho)|]. apply Hlt in Hb. injection E as E _. lia.
    + rewrite bget_insert. destruct (keqb_spec i0 i) as [->|Hne]; [intros _; exact (Hs _ _ Hget)|apply Hs].
    + rewrite bget_insert. destruct (keqb_spec i0 i) as [->|Hne]; [intros _; exact (Hs _ _ Hget)|apply Hs].
    + destruct (keqb_spec i0 i) as [->|Hne].
      * destruct nx; [|discriminate]. intros _ o. rewrite app_nil_r. exact (Hs _ _ Hget o).
      * intros Hb o. rewrite in_app_iff. intros [Ho|Ho]; [exact (Hs _ _ Hb _ Ho)|].
        destruct nx; [destruct Ho|destruct Ho as [E|[]]; congruence].
    + destruct (keqb_spec i0 i) as [->|Hne]; [discriminate|].
      intros Hb o. rewrite in_app_iff. intros [Ho|[E|[]]]; [exact (Hs _ _ Hb _ Ho)|]. congruence.
Qed.

Lemma ends_soon (env : Sys -> Label -> Prop) s id t r ls : reach self keccak env s ->
  bget id (sys_tasks s) = Some {| fl_task := t; fl_reply := r |} -> is_scrape t = false ->
  let s' := run self keccak s ls in let n := received self keccak s id ls in
  ended s' id /\ n <= most_answers t \/ suspended s' id /\ n < most_answers t.
Proof.
  intros Hr Hb Hs. pose proof (ids_reach self keccak env s Hr) as Hi.
  apply (go_run ls s id (most_answers t) Hi (ids_lt _ Hi _ _ Hb)). exists t, r. split; [exact Hb|]. split; [exact Hs|].
  split; [lia|]. exact (no_outcome env s id _ Hr Hb).
Qed.

(** ** Ending a function *)
Definition refusal (t : Task) : Reply :=
  match t with
  | TScrapeBlock _ => ReBlock None
  | TScrapeLogs _ => ReLogs LogsErr
  | TRetrieveFee | TErc20Estimate _ | TRefresh => ReFees None
  | TRetrieveCount _ | TRetrieveFinalizedCount => ReCount None
  | TRetrieveSign _ b => ReSigs (map (fun _ => None) b)
  | TRetrieveSend _ => ReSent
  | TRetrieveReceipts h => ReReceipts (map (fun _ => ReceiptErr) h)
  | _ => ReLedger LedgerReject
  end.
Lemma refusal_fits t : reply_fits self t (refusal t) = true.
Proof. destruct t; cbn; rewrite ?map_length, ?Nat.eqb_refl; reflexivity. Qed.
Definition distance (t : Task) : N :=
  match t with
  | TScrapeLogs _ => 1
  | TScrapeBlock a => 2 + (3 - a)
  | _ => most_answers t
  end.
Lemma refusal_nearer now t c c' t' : resume keccak now t (refusal t) c = Done (c', Await t') -> distance t' < distance t.
Proof.
  intros H. destruct (is_scrape t) eqn:E.
  - destruct t as [ | | |a|j| | | | | | | | | | | | | | | ]; try discriminate E; cbn [resume refusal] in H.
    + unfold scrape_block_reply in H. destruct (last_observed_block_number (fst c)) as [last|].
      * unfold scrape_until_block in H. apply rbind_done in H as (sc & _ & H). apply rbind_done in H as (ck & _ & H).
        unfold scrape_next_chunk, end_timer in H. apply rbind_done in H as ([[x|] ck'] & _ & H); [|discriminate].
        injection H as _ <-. cbn. lia.
      * unfold end_timer, MAX_ATTEMPTS in H. destruct (N.leb_spec 3 (a + 1)); [discriminate|]. injection H as _ <-. cbn [distance]. lia.
    + unfold scrape_logs_reply, end_timer in H. destruct (sj_current j). discriminate.
  - destruct (fewer _ _ _ _ _ _ H E) as (F1 & F2).
    replace (distance t) with (most_answers t) by (destruct t; try reflexivity; discriminate).
    replace (distance t') with (most_answers t') by (destruct t'; try reflexivity; discriminate). exact F1.
Qed.

Lemma delivered s id t r : bget id (sys_tasks s) = Some {| fl_task := t; fl_reply := Some r |} ->
  (forall o, ~ In (id, o) (sys_outcomes s)) ->
  let s' := step self keccak s (LDeliver id false (sys_clock s)) in
  ended s' id \/ exists t' c, bget id (sys_tasks s') = Some {| fl_task := t'; fl_reply := None |} /\
    (forall o, ~ In (id, o) (sys_outcomes s')) /\ resume keccak (sys_clock s) t r (sys_core s) = Done (c, Await t').
Proof.
  intros Hb Hno. cbv zeta. cbn [step]. rewrite N.ltb_irrefl, Hb. unfold deliver.
  assert (Hend : forall s1 o, sys_outcomes s1 = sys_outcomes s -> ended (install id (Finish o) s1) id).
  { intros s1 o E1. split.
    - rewrite install_tasks. rewrite keqb_refl. reflexivity.
    - exists o. intros o'. rewrite install_outcomes, E1. cbn. rewrite in_app_iff. split.
      + intros [H0|[E|[]]]; [destruct (Hno _ H0)|congruence].
      + intros ->. right. left. reflexivity. }
  destruct (resume keccak (sys_clock s) t r (sys_core s)) as [[c [t'|o]]|m] eqn:E.
  - right. exists t', c. split; [cbn; apply bget_insert_eq|]. split; [exact Hno|]. reflexivity.
  - left. apply Hend. reflexivity.
  - left. apply Hend. reflexivity.
Qed.

Lemma refused s id t : bget id (sys_tasks s) = Some {| fl_task := t; fl_reply := None |} ->
  (forall o, ~ In (id, o) (sys_outcomes s)) ->
  let s' := step self keccak s (LAnswer id (refusal t)) in
  bget id (sys_tasks s') = Some {| fl_task := t; fl_reply := Some (refusal t) |} /\ sys_outcomes s' = sys_outcomes s.
Proof.
  intros Hb Hno. cbv zeta. cbn [step]. rewrite Hb, refusal_fits.
  assert (E : forall b, refusal t <> ReLedger (LedgerOk b)) by (destruct t; discriminate).
  destruct (task_call self t) as [cl|]; [|cbn; rewrite bget_insert_eq; auto].
  destruct (refusal t) as [[b| |]| | | | | | |]; try (cbn; rewrite bget_insert_eq; auto). destruct (E b eq_refl).
Qed.

Lemma can_end_idle n : forall s id t, distance t <= N.of_nat n -> bget id (sys_tasks s) = Some {| fl_task := t; fl_reply := None |} ->
  (forall o, ~ In (id, o) (sys_outcomes s)) ->
  exists ls, Forall (concerns id) ls /\ ended (run self keccak s ls) id.
Proof.
  induction n as [|n IH]; intros s id t Hd Hb Hno.
  - exfalso. destruct t; cbn in Hd; lia.
  - destruct (refused s id t Hb Hno) as (Hb1 & Ho1). set (s1 := step self keccak s (LAnswer id (refusal t))) in *.
    assert (Hno1 : forall o, ~ In (id, o) (sys_outcomes s1)) by (rewrite Ho1; exact Hno).
    destruct (delivered s1 id t _ Hb1 Hno1) as [He|(t' & c & Hb2 & Hno2 & Hres)].
    + exists [LAnswer id (refusal t); LDeliver id false (sys_clock s1)]. split; [|exact He].
      constructor; [reflexivity|]. constructor; [reflexivity|constructor].
    + apply refusal_nearer in Hres.
      destruct (IH _ id t' ltac:(lia) Hb2 Hno2) as (ls & Hls & He).
      exists (LAnswer id (refusal t) :: LDeliver id false (sys_clock s1) :: ls). split; [|exact He].
      constructor; [reflexivity|]. constructor; [reflexivity|exact Hls].
Qed.

Lemma can_end (env : Sys -> Label -> Prop) s id : reach self keccak env s -> suspended s id ->
  exists ls, Forall (concerns id) ls /\ ended (run self keccak s ls) id.
Proof.
  intros Hr Hs. unfold suspended in Hs. destruct (bget id (sys_tasks s)) as [[t r]|] eqn:Hb; [|congruence].
  pose proof (no_outcome env s id _ Hr Hb) as Hno. destruct r as [r|].
  - destruct (delivered s id t r Hb Hno) as [He|(t' & c & Hb2 & Hno2 & _)].
    + exists [LDeliver id false (sys_clock s)]. split; [constructor; [reflexivity|constructor]|exact He].
    + destruct (can_end_idle (N.to_nat (distance t')) _ id t' ltac:(lia) Hb2 Hno2) as (ls & Hls & He).
      exists (LDeliver id false (sys_clock s) :: ls). split; [constructor; [reflexivity|exact Hls]|exact He].
  - exact (can_end_idle (N.to_nat (distance t)) s id t ltac:(lia) Hb Hno).
Qed.

(** ** From the start *)
Lemma call_small now u c c' t : call_start now u c = Done (c', Await t) -> is_scrape t = false /\ most_answers t <= call_answers u.
Proof.
  intros H. apply (call_after keccak) in H. destruct u; cbn [call_next call_answers] in *.
  - destruct H as (_ & s & _ & [(E & _)|(d & _ & _ & [(E & _)|(_ & _ & H)])]); try discriminate. cbv zeta in H.
    destruct (withdrawal_native_fee s).
    + destruct H as (_ & E). injection E as ->. cbn. split; [reflexivity|lia].
    + injection H as ->. cbn. split; [reflexivity|lia].
  - destruct H as (_ & s & _ & [(e & E & _)|(d & tk & _ & _ & _ & H)]); try discriminate. cbv zeta in H.
    destruct H as [(g & t' & _ & E & H)|(s' & _ & _ & E)]; injection E as ->.
    + unfold estimated_next in H. destruct (withdrawal_native_fee s).
      * destruct H as (_ & ->). cbn. split; [reflexivity|lia].
      * subst t'. cbn. split; [reflexivity|lia].
    + cbn. split; [reflexivity|lia].
  - destruct H as (E & _). discriminate.
  - destruct H as (_ & n & tm & _ & _ & E). discriminate.
Qed.
Lemma timer_small now k c c' t n : timer_start now k c = Done (c', Await t) -> round_answers k (fst c) = Some n ->
  is_scrape t = false /\ most_answers t <= n.
Proof.
  intros H Hn. apply timer_after in H. cbn [timer_next] in H.
  destruct t as [j| |l i q rest|a| | |g| | | | | | | | | | | | | ]; try (destruct H; fail).
  - destruct H as (-> & Hg & _ & Hm). apply mint_next_inv in Hm as [(_ & _ & E)|(_ & j1 & E & _ & _ & Er)]; [discriminate|].
    injection E as <-. cbn in Hn. injection Hn as <-.
    assert (E : events_to_mint_list (fst c') = events_to_mint_list (fst c)).
    { unfold timer_guard_new in Hg. destruct (bmem _ _) in Hg; [discriminate|]. injection Hg as <-. reflexivity. }
    rewrite <- E, Er. cbn [most_answers is_scrape List.length]. split; [reflexivity|lia].
  - destruct H as (-> & Hg & _ & Er & _). cbn in Hn. injection Hn as <-.
    assert (E : withdrawals (fst c') = withdrawals (fst c)).
    { unfold timer_guard_new in Hg. destruct (bmem _ _) in Hg; [discriminate|]. injection Hg as <-. reflexivity. }
    rewrite <- E, Er. cbn [most_answers is_scrape List.length]. split; [reflexivity|lia].
  - destruct H as (-> & _). discriminate.
  - subst k. injection Hn as <-. cbn. split; [reflexivity|lia].
  - subst k. injection Hn as <-. cbn. split; [reflexivity|lia].
  - subst k. injection Hn as <-. cbn. split; [reflexivity|lia].
Qed.

Lemma started s s0 now r n : ids_ok s -> (forall i o, In (i, o) (sys_outcomes s) -> i < sys_next s) ->
  sys_tasks s0 = sys_tasks s -> sys_outcomes s0 = sys_outcomes s -> sys_next s0 = sys_next s ->
  (forall c t, r = Done (c, Await t) -> is_scrape t = false /\ most_answers t <= n) ->
  let s' := start_task now r s0 in going s' (sys_next s) n \/ ended s' (sys_next s).
Proof.
  intros Hi Ho E1 E2 E3 Hr. cbv zeta. rewrite <- E3.
  assert (Hno : forall o, ~ In (sys_next s0, o) (sys_outcomes s0)) by (intros o Hin; rewrite E2, E3 in Hin; apply Ho in Hin; lia).
  assert (Hb : bget (sys_next s0) (sys_tasks s0) = None).
  { rewrite E1, E3. destruct (bget (sys_next s) (sys_tasks s)) eqn:E; [|reflexivity]. apply (ids_lt _ Hi) in E. lia. }
  destruct r as [[c [t|o]]|m]; cbn [start_task].
  - left. destruct (Hr c t eq_refl) as (R1 & R2). exists t, None. cbn. rewrite bget_insert_eq. auto.
  - right. split; [cbn; apply bget_remove_eq || exact Hb|].
    exists o. intros o'. cbn. rewrite in_app_iff. split.
    + intros [H0|[E|[]]]; [destruct (Hno _ H0)|congruence].
    + intros ->. right. left. reflexivity.
  - right. split; [cbn; exact Hb|].
    exists OutTrap. intros o'. cbn. rewrite in_app_iff. split.
    + intros [H0|[E|[]]]; [destruct (Hno _ H0)|congruence].
    + intros ->. right. left. reflexivity.
Qed.

Lemma start_ends (env : Sys -> Label -> Prop) s l s0 now r n ls : reach self keccak env s ->
  step self keccak s l = start_task now r s0 ->
  sys_tasks s0 = sys_tasks s -> sys_outcomes s0 = sys_outcomes s -> sys_next s0 = sys_next s ->
  (forall c t, r = Done (c, Await t) -> is_scrape t = false /\ most_answers t <= n) ->
  let id := sys_next s in let s1 := step self keccak s l in
  let s' := run self keccak s1 ls in let m := received self keccak s1 id ls in
  ended s' id /\ m <= n \/ suspended s' id /\ m < n.
Proof.
  intros Hr E E1 E2 E3 Hn. cbv zeta. pose proof (ids_reach self keccak env s Hr) as Hi.
  pose proof (started s s0 now r n Hi (outcomes_reach self keccak env s Hr) E1 E2 E3 Hn) as H. cbv zeta in H.
  assert (Hi' : ids_ok (step self keccak s l)) by (eapply ids_step; [exact Hi|apply step_trans]).
  assert (Hlt : sys_next s < sys_next (step self keccak s l)).
  { rewrite E, <- E3. destruct r as [[c [t|o]]|m]; cbn; lia. }
  rewrite <- E in H. destruct (go_run ls _ (sys_next s) n Hi' Hlt) as (A & B). destruct H as [H|H].
  - exact (A H).
  - destruct (B H) as (B1 & ->). left. split; [exact B1|lia].
Qed.

Lemma call_ends (env : Sys -> Label -> Prop) s u now ls : reach self keccak env s -> sys_clock s <= now ->
  let id := sys_next s in let s1 := step self keccak s (LCall u now) in
  let s' := run self keccak s1 ls in let m := received self keccak s1 id ls in
  ended s' id /\ m <= call_answers u \/ suspended s' id /\ m < call_answers u.
Proof.
  intros Hr Hc. apply (start_ends env s (LCall u now) (with_call (sys_next s) u s) now (call_start now u (sys_core s))); auto.
  - cbn [step]. destruct (N.ltb_spec now (sys_clock s)); [lia|]. reflexivity.
  - intros c t H. exact (call_small _ _ _ _ _ H).
Qed.
Lemma round_ends (env : Sys -> Label -> Prop) s k now n ls : reach self keccak env s -> sys_clock s <= now ->
  round_answers k (sys_state s) = Some n ->
  let id := sys_next s in let s1 := step self keccak s (LTimer k now) in
  let s' := run self keccak s1 ls in let m := received self keccak s1 id ls in
  ended s' id /\ m <= n \/ suspended s' id /\ m < n.
Proof.
  intros Hr Hc Hn. apply (start_ends env s (LTimer k now) s now (timer_start now k (sys_core s))); auto.
  - cbn [step]. destruct (N.ltb_spec now (sys_clock s)); [lia|]. reflexivity.
  - intros c t H. exact (timer_small _ _ _ _ _ _ H Hn).
Qed.
End Ends.
