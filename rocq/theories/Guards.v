(** * Guards: who holds them, in every reachable configuration. *)

From Verif Require Import Base BMap MultiKeyMap MultiKeyMapFacts Bytes Types Amount ArithFacts Tx CallData
  Network Hex Transactions State Audit Ranges Rlp Parser Memo Driver Sys SysSpec WtInv StateEquiv
  Segments Tasks SysFacts CoreInv GuardSpec.

(** ** Guards of the state *)

Definition gs (s : State) : bset TaskType * bset Principal :=
  (active_tasks s, pending_withdrawal_principals s).

Lemma gs_apply s e s' : apply_state_transition s e = Done s' -> gs s' = gs s.
Proof. intros H. apply apply_same in H as (_ & _ & _ & H1 & H2 & _). unfold gs. congruence. Qed.
Lemma gs_event now e c c' : process_event now e c = Done c' -> gs (fst c') = gs (fst c).
Proof. intros H. apply process_event_inv in H as (s' & H & ->). apply gs_apply in H. exact H. Qed.
Lemma gs_events now es : forall c c', process_events now es c = Done c' -> gs (fst c') = gs (fst c).
Proof.
  unfold process_events. induction es as [|e es IH]; cbn; intros c c' H; inv_res; auto.
  apply IH in H. apply gs_event in H0. congruence.
Qed.
Lemma gs_create now g l : forall c c', rfold (create_one now g) c l = Done c' -> gs (fst c') = gs (fst c).
Proof.
  induction l as [|r l IH]; cbn; intros c c' H; inv_res; auto.
  apply IH in H. rewrite H. unfold create_one in H0. inv_res. destruct x0.
  - eapply gs_event; eauto.
  - inv_res. reflexivity.
Qed.
Lemma gs_resubmit now n g c c' : resubmit_batch now n g c = Done c' -> gs (fst c') = gs (fst c).
Proof.
  unfold resubmit_batch. destruct (mkm_is_empty _); [intros H; inv_res; auto|].
  destruct n; intros H; inv_res; auto. eapply gs_events; eauto.
Qed.
Lemma gs_refresh now r s s' o : refresh_reply now r s = (s', o) ->
  gs s' = (bremove TaskRefreshGasFeeEstimate (active_tasks s), pending_withdrawal_principals s).
Proof.
  unfold refresh_reply. destruct r as [h|]; [destruct (estimate_transaction_fee _ h)|];
    injection 1 as <- <-; reflexivity.
Qed.

(** Timer guards [ts] become [ts'], principal guard [p] becomes [p'] *)
Record moved (ts ts' : list TaskType) (p p' : option Principal) (g g' : bset TaskType * bset Principal)
  : Prop := {
  mv_timer : forall T, bmem T (fst g') = true <-> bmem T (fst g) = true /\ (In T ts -> In T ts');
  mv_timer_incl : incl ts' ts;
  mv_princ : forall q, bmem q (snd g') = true <-> bmem q (snd g) = true /\ (p = Some q -> p' = Some q);
  mv_princ_incl : p' = p \/ p' = None;
  mv_sorted : bsorted (snd g) -> bsorted (snd g');
  mv_length : (List.length (snd g') <= List.length (snd g))%nat
}.

Lemma bmem_remove_iff {K} `{Ord K} {V} k k' (m : bmap K V) :
  bmem k' (bremove k m) = true <-> k' <> k /\ bmem k' m = true.
Proof.
  rewrite bmem_remove, andb_true_iff, negb_true_iff, keqb_neq. tauto.
Qed.
Lemma bmem_insert_iff {K} `{Ord K} {V} k v k' (m : bmap K V) :
  bmem k' (binsert k v m) = true <-> k' = k \/ bmem k' m = true.
Proof. rewrite bmem_insert, orb_true_iff, keqb_eq. tauto. Qed.
Lemma bremove_length_le {K} `{Ord K} {V} k (m : bmap K V) :
  (List.length (bremove k m) <= List.length m)%nat.
Proof. induction m as [|[k1 v1] m IH]; cbn; auto. destruct (keqb k k1); cbn; lia. Qed.

Lemma moved_stay ts p g g' : g' = g -> moved ts ts p p g g'.
Proof. intros ->. constructor; try tauto; auto. intros x Hx; exact Hx. Qed.
Lemma moved_timer T p s s' : gs s' = gs s -> moved [T] [] p p (gs s) (gs (timer_guard_drop T s')).
Proof.
  unfold gs. injection 1 as H1 H2. constructor; cbn; rewrite ?H1, ?H2; auto.
  - intros T'. rewrite bmem_remove_iff. intuition.
  - intros x [].
  - intros. tauto.
Qed.
Lemma drop_iff (p q : Principal) (A : Prop) :
  q <> p /\ A <-> A /\ (Some p = Some q -> None = Some q).
Proof.
  split.
  - intros [H1 H2]. split; auto. intros E. injection E as ->. contradiction.
  - intros [H1 H2]. split; auto. intros ->. specialize (H2 eq_refl). discriminate.
Qed.
Lemma moved_call p s s' : gs s' = gs s -> moved [] [] (Some p) None (gs s) (gs (guard_drop p s')).
Proof.
  unfold gs. injection 1 as H1 H2. constructor; cbn; rewrite ?H1, ?H2; auto.
  - intros. tauto.
  - intros x [].
  - intros q. rewrite bmem_remove_iff. apply drop_iff.
  - apply bsorted_remove.
  - apply bremove_length_le.
Qed.

Definition held (nx : Next) : list TaskType := match nx with Await t => task_timers t | Finish _ => [] end.
Definition owner (nx : Next) : option Principal := match nx with Await t => task_principal t | Finish _ => None end.

Definition moves (t : Task) (nx : Next) (s s' : State) : Prop :=
  moved (task_timers t) (held nx) (task_principal t) (owner nx) (gs s) (gs s').

Section Guards.
Variable keccak : list N -> Hash.

Lemma moves_mint t s c c' nx fee l es :
  task_timers t = [TaskMint] -> task_principal t = None -> gs (fst c) = gs s ->
  mint_next fee l es c = Done (c', nx) -> moves t nx s (fst c').
Proof.
  intros Ht Hp Hg H. unfold moves. rewrite Ht, Hp.
  apply mint_next_inv in H as [(_ & -> & ->)|(-> & j' & -> & _)]; cbn [held owner].
  - apply moved_timer; auto.
  - apply moved_stay; auto.
Qed.
Lemma moves_chunk t s a tp ck c c' nx :
  task_timers t = [TaskScrapLogs] -> task_principal t = None -> gs (fst c) = gs s ->
  scrape_next_chunk a tp ck c = Done (c', nx) -> moves t nx s (fst c').
Proof.
  intros Ht Hp Hg H. unfold moves. rewrite Ht, Hp.
  apply scrape_next_chunk_inv in H as [(-> & ->)|(-> & j' & ->)]; cbn [held owner].
  - apply moved_timer; auto.
  - apply moved_stay; auto.
Qed.
Lemma moves_scrape t s j l c c' nx :
  task_timers t = [TaskScrapLogs] -> task_principal t = None -> gs (fst c) = gs s ->
  scrape_next j l c = Done (c', nx) -> moves t nx s (fst c').
Proof.
  intros Ht Hp Hg H. unfold moves. rewrite Ht, Hp.
  apply scrape_next_inv in H as [(-> & ->)|(-> & j' & ->)]; cbn [held owner].
  - apply moved_timer; auto.
  - apply moved_stay; auto.
Qed.
Lemma moves_end t T s c c' nx :
  task_timers t = [T] -> task_principal t = None -> gs (fst c) = gs s ->
  end_timer T c = Done (c', nx) -> moves t nx s (fst c').
Proof.
  intros Ht Hp Hg H. unfold moves, end_timer in *. inv_res. rewrite Ht, Hp. apply moved_timer; auto.
Qed.
Lemma moves_end_call t p o s c c' nx :
  task_timers t = [] -> task_principal t = Some p -> gs (fst c) = gs s ->
  end_call p o c = Done (c', nx) -> moves t nx s (fst c').
Proof.
  intros Ht Hp Hg H. unfold moves, end_call in *. inv_res. rewrite Ht, Hp. apply moved_call; auto.
Qed.
Lemma moves_await t t' s s' :
  task_timers t' = task_timers t -> task_principal t' = task_principal t -> gs s' = gs s ->
  moves t (Await t') s s'.
Proof. intros Ht Hp Hg. unfold moves; cbn. rewrite Ht, Hp. apply moved_stay; auto. Qed.
Lemma moves_reimburse t s c c' nx l :
  task_timers t = [TaskReimbursement] -> task_principal t = None -> gs (fst c) = gs s ->
  reimburse_next l c = Done (c', nx) -> moves t nx s (fst c').
Proof.
  intros Ht Hp Hg H. unfold reimburse_next in H. destruct l as [|[i r] l].
  - eapply moves_end; eauto.
  - inv_res. apply moves_await; auto.
Qed.
Lemma moves_finalize t s c c' nx :
  task_timers t = [TaskRetrieveEth] -> task_principal t = None -> gs (fst c) = gs s ->
  finalize_start c = Done (c', nx) -> moves t nx s (fst c').
Proof.
  intros Ht Hp Hg H. unfold finalize_start in H. destruct (mkm_is_empty _).
  - eapply moves_end; eauto.
  - inv_res. apply moves_await; auto.
Qed.
Lemma moves_send t s c c' nx n :
  task_timers t = [TaskRetrieveEth] -> task_principal t = None -> gs (fst c) = gs s ->
  send_start n c = Done (c', nx) -> moves t nx s (fst c').
Proof.
  intros Ht Hp Hg H. unfold send_start in H. destruct n; [|eapply moves_finalize; eauto].
  inv_res. destruct x; [eapply moves_finalize; eauto|]. inv_res. apply moves_await; auto.
Qed.
Lemma moves_refund t j i e s c c' nx :
  task_timers t = [] -> task_principal t = Some (ej_caller j) -> gs (fst c) = gs s ->
  erc20_refund_start j i e c = Done (c', nx) -> moves t nx s (fst c').
Proof.
  intros Ht Hp Hg H. unfold erc20_refund_start in H. destruct (ej_fee j).
  - inv_res. apply moves_await; auto.
  - eapply moves_end_call; eauto.
Qed.

Lemma resume_moves now t r c c' nx :
  resume keccak now t r c = Done (c', nx) -> moves t nx (fst c) (fst c').
Proof.
  intros H. destruct t, r; cbn in H; try discriminate.
  - unfold mint_reply in H. destruct r as [b|e|].
    + inv_res. destruct (is_native (mj_event j) && is_some (mj_fee j)).
      * inv_res. apply moves_await; auto.
      * unfold mint_record in H. inv_res. eapply moves_mint; [| | |exact H]; auto. eapply gs_event; eauto.
    + eapply moves_mint; [| | |exact H]; auto.
    + eapply moves_mint; [| | |exact H]; auto.
  - unfold mint_record in H. inv_res. eapply moves_mint; [| | |exact H]; auto. eapply gs_event; eauto.
  - unfold reimburse_reply in H. destruct r as [b|e|].
    + inv_res. eapply moves_reimburse; [| | |exact H]; auto. eapply gs_event; eauto.
    + eapply moves_reimburse; [| | |exact H]; auto.
    + eapply moves_reimburse; [| | |exact H]; auto.
  - unfold scrape_block_reply in H.
    set (c1 := match r with
               | Some number => (set_last_observed_block_number
                   (observed_block (evm_network (fst c)) number) (fst c), snd c)
               | None => c end) in H.
    assert (Hg : gs (fst c1) = gs (fst c)) by (subst c1; destruct r; reflexivity).
    destruct (last_observed_block_number (fst c1)).
    + unfold scrape_until_block in H. inv_res. eapply moves_chunk; [| | |exact H]; auto.
    + destruct (MAX_ATTEMPTS <=? attempts + 1).
      * eapply moves_end; [| | |exact H]; auto.
      * inv_res. apply moves_await; auto.
  - unfold scrape_logs_reply in H. destruct (sj_current j) as [f to]. destruct r as [logs| |].
    + inv_res. destruct x as [ds es]. inv_res. eapply moves_scrape; [| | |exact H]; auto. apply gs_events in H1. exact H1.
    + destruct (f =? to); inv_res.
      * eapply moves_scrape; [| | |exact H]; auto. apply gs_event in H0. exact H0.
      * eapply moves_scrape; [| | |exact H]; auto.
    + eapply moves_end; [| | |exact H]; auto.
  - unfold retrieve_fee_reply in H. destruct (refresh_reply now r (fst c)) as [s o] eqn:E.
    apply gs_refresh in E. unfold moves. destruct o; unfold end_timer in H; inv_res; cbn.
    + rewrite E. constructor; cbn; auto; try tauto.
      * intros T. rewrite bmem_remove_iff. split.
        -- intros [Hn HT]. split; auto. intros [?|[?|[]]]; auto; congruence.
        -- intros [HT Hn]. split; auto. intros ->. destruct Hn as [|[]]; [auto|discriminate].
      * intros T HT. cbn in *. tauto.
    + unfold gs in *. injection E as E1 E2. cbn. rewrite E1, E2. constructor; cbn; auto; try tauto.
      * intros T. rewrite !bmem_remove_iff. intuition.
      * intros T HT. cbn in *. tauto.
  - unfold retrieve_count_reply in H. inv_res. unfold sign_start in H. inv_res.
    assert (Hg : gs (fst x0) = gs (fst c)).
    { apply gs_resubmit in H0. apply gs_create in H1. congruence. }
    destruct x1; [eapply moves_send; [| | |exact H]; auto|]. inv_res. apply moves_await; auto.
  - unfold retrieve_sign_reply in H. inv_res. eapply moves_send; [| | |exact H]; auto. eapply gs_events; eauto.
  - eapply moves_finalize; [| | |exact H]; auto.
  - unfold retrieve_finalized_count_reply in H. destruct r as [n|]; [|eapply moves_end; [| | |exact H]; auto].
    inv_res. destruct x; [eapply moves_end; [| | |exact H]; auto|]. inv_res. apply moves_await; auto.
  - unfold retrieve_receipts_reply in H. destruct (collect_receipts hashes l []) as [rs|];
      [|eapply moves_end; [| | |exact H]; auto]. inv_res. eapply moves_end; [| | |exact H]; auto. eapply gs_events; eauto.
  - unfold native_fee_reply in H. inv_res. destruct x as [i|e].
    + inv_res. unfold native_burn_start in H. inv_res. apply moves_await; auto.
    + eapply moves_end_call; [| | |exact H]; auto.
  - unfold native_burn_reply in H. inv_res. destruct x as [i|e].
    + inv_res. eapply moves_end_call; [| | |exact H]; auto. eapply gs_event; eauto.
    + destruct (nj_fee j); [inv_res; apply moves_await; auto|inv_res; eapply moves_end_call; [| | |exact H]; auto].
  - unfold native_refund_reply in H. inv_res. eapply moves_end_call; [| | |exact H]; auto.
  - unfold erc20_estimate_reply in H. destruct (refresh_reply now r (fst c)) as [s o] eqn:E.
    apply gs_refresh in E. destruct o as [g|].
    + apply estimated_inv in H as (-> & t' & -> & Hn). unfold estimated_next in Hn.
      assert (Ht : task_timers t' = [] /\ task_principal t' = Some (ej_caller j)).
      { destruct (withdrawal_native_fee _); [destruct Hn as [_ ->]|subst t']; auto. }
      destruct Ht as [Ht Hp]. unfold moves. cbn. rewrite Ht, Hp, E.
      constructor; cbn; auto; try tauto.
      * intros T. rewrite bmem_remove_iff. intuition.
      * intros T [].
    + unfold end_call in H. inv_res. unfold moves, gs in *. injection E as E1 E2. cbn. rewrite E1, E2.
      constructor; cbn; auto; try tauto.
      * intros T. rewrite bmem_remove_iff. intuition.
      * intros T [].
      * intros q. rewrite bmem_remove_iff. apply drop_iff.
      * apply bsorted_remove.
      * apply bremove_length_le.
  - unfold erc20_fee_reply in H. inv_res. destruct x as [i|e].
    + unfold erc20_gas_burn_start in H. inv_res. apply moves_await; auto.
    + eapply moves_end_call; [| | |exact H]; auto.
  - unfold erc20_gas_burn_reply in H. inv_res. destruct x as [i|e].
    + inv_res. apply moves_await; auto.
    + eapply moves_refund; [| | |exact H]; auto.
  - unfold erc20_burn_reply in H. inv_res. destruct x as [i|e].
    + inv_res. eapply moves_end_call; [| | |exact H]; auto. eapply gs_event; eauto.
    + inv_res. eapply moves_refund; [| | |exact H]; auto.
      destruct (0 <? _); inv_res; auto. eapply gs_event; eauto.
  - unfold erc20_refund_reply in H. inv_res. eapply moves_end_call; [| | |exact H]; auto.
  - inv_res. unfold moves. cbn [fst]. destruct (refresh_reply now r (fst c)) as [s o] eqn:E.
    apply gs_refresh in E. cbn. rewrite E. constructor; cbn; auto; try tauto.
    + intros T. rewrite bmem_remove_iff. intuition.
    + intros T [].
Qed.

Lemma cleanup_moves now t c c' :
  cleanup now t c = Done c' -> moves t (Finish OutTrap) (fst c) (fst c').
Proof.
  unfold cleanup. intros H. inv_res. apply gs_events in H0. unfold moves, gs in *. cbn.
  injection H0 as E1 E2.
  assert (Hr : forall l s, active_tasks (fold_left (fun s t => timer_guard_drop t s) l s) =
    fold_left (fun m T => bremove T m) l (active_tasks s) /\
    pending_withdrawal_principals (fold_left (fun s t => timer_guard_drop t s) l s) =
    pending_withdrawal_principals s).
  { induction l as [|T l IH]; intros s; cbn; auto. destruct (IH (timer_guard_drop T s)) as [-> ->]. auto. }
  assert (Hm : forall l (m : bset TaskType) T, bmem T (fold_left (fun m T => bremove T m) l m) = true <->
    bmem T m = true /\ (In T l -> False)).
  { induction l as [|T1 l IH]; intros m T; cbn; [tauto|]. rewrite IH, bmem_remove_iff. intuition. }
  unfold release. destruct (Hr (task_timers t) (fst x)) as [H1 H2].
  destruct (task_principal t) as [p|] eqn:Ep; cbn; rewrite H1, H2, E1, E2; constructor; cbn; auto; try tauto.
  - intros T []. 
  - intros q. rewrite bmem_remove_iff. apply drop_iff.
  - apply bsorted_remove.
  - apply bremove_length_le.
  - intros T [].
Qed.

(** Starting a function: it takes guards nobody holds. *)
Record taken (ts : list TaskType) (p : option Principal) (g g' : bset TaskType * bset Principal) : Prop := {
  tk_timer : forall T, bmem T (fst g') = true <-> bmem T (fst g) = true \/ In T ts;
  tk_timer_new : forall T, In T ts -> bmem T (fst g) = false;
  tk_princ : forall q, bmem q (snd g') = true <-> bmem q (snd g) = true \/ p = Some q;
  tk_princ_new : forall q, p = Some q -> bmem q (snd g) = false;
  tk_sorted : bsorted (snd g) -> bsorted (snd g');
  tk_length : bsorted (snd g) -> (List.length (snd g) <= 100)%nat -> (List.length (snd g') <= 100)%nat
}.

Lemma none_iff (A : Prop) (q : Principal) : A <-> A \/ None = Some q.
Proof. split; auto. intros [|]; [auto|discriminate]. Qed.
Lemma taken_none g g' : g' = g -> taken [] None g g'.
Proof.
  intros ->. constructor; auto; try discriminate.
  - intros T. cbn. tauto.
  - intros T [].
  - intros q. apply none_iff.
Qed.

Lemma timer_guard_new_inv T s s' : timer_guard_new T s = Some s' ->
  bmem T (active_tasks s) = false /\ gs s' = (binsert T tt (active_tasks s), pending_withdrawal_principals s).
Proof.
  unfold timer_guard_new. destruct (bmem T (active_tasks s)); [discriminate|]. injection 1 as <-. auto.
Qed.
Lemma taken_timer T s s' g : timer_guard_new T s = Some s' -> g = gs s' -> taken [T] None (gs s) g.
Proof.
  intros H ->. apply timer_guard_new_inv in H as [H1 ->]. constructor; cbn; auto; try discriminate.
  - intros T'. rewrite bmem_insert_iff. intuition.
  - intros T' [<-|[]]. auto.
  - intros q. apply none_iff.
Qed.
(** taken and dropped again *)
Lemma taken_dropped T s s' g : timer_guard_new T s = Some s' ->
  g = gs (timer_guard_drop T s') -> taken [] None (gs s) g.
Proof.
  intros H ->. apply timer_guard_new_inv in H as [H1 H2]. unfold gs in *. injection H2 as H2 H3. cbn.
  rewrite H2, H3. constructor; cbn; auto; try discriminate; try tauto.
  - intros T'. rewrite bmem_remove_iff, bmem_insert_iff. split; [intuition|].
    intros [HT|[]]. split; auto. intros ->. congruence.
  - intros q. apply none_iff.
Qed.

Lemma refresh_start_wait now s s' : refresh_start now s = RefreshWait s' ->
  timer_guard_new TaskRefreshGasFeeEstimate s = Some s'.
Proof.
  unfold refresh_start. destruct (timer_guard_new TaskRefreshGasFeeEstimate s) as [s1|].
  - destruct (last_transaction_price_estimate s) as [[ts g]|]; [destruct (now <? _)|]; congruence.
  - destruct (last_transaction_price_estimate s) as [[ts g]|]; [destruct (now <? _)|]; discriminate.
Qed.

Lemma timer_taken now k c c' nx : timer_start now k c = Done (c', nx) ->
  taken (held nx) (owner nx) (gs (fst c)) (gs (fst c')).
Proof.
  destruct c as [s log]. destruct k; cbn [timer_start fst].
  - unfold mint_start; cbn [fst snd]. destruct (timer_guard_new _ s) as [s1|] eqn:E; intros H;
      [|inv_res; apply taken_none; auto].
    apply mint_next_inv in H as [(_ & -> & ->)|(-> & j' & -> & _)]; cbn.
    + eapply taken_dropped; eauto.
    + eapply taken_timer; eauto.
  - unfold scrape_start; cbn [fst snd]. destruct (timer_guard_new _ s) as [s1|] eqn:E; intros H; inv_res.
    + eapply taken_timer; eauto.
    + apply taken_none; auto.
  - unfold retrieve_start, end_timer; cbn [fst snd]. destruct (timer_guard_new _ s) as [s1|] eqn:E; intros H;
      [|inv_res; apply taken_none; auto].
    destruct (negb _); [inv_res; eapply taken_dropped; eauto|]. destruct (refresh_start now s1) eqn:Er; inv_res.
    + eapply taken_timer; eauto.
    + eapply taken_dropped; eauto.
    + apply refresh_start_wait in Er. apply timer_guard_new_inv in E as [E1 E2].
      apply timer_guard_new_inv in Er as [E3 E4]. unfold gs in *. injection E2 as E2 E2'.
      cbn. rewrite E4, E2, E2' in *.
      constructor; cbn; auto; try discriminate.
      * intros T. rewrite !bmem_insert_iff. intuition.
      * intros T [<-|[<-|[]]]; auto. rewrite bmem_insert in E3. apply orb_false_iff in E3. tauto.
      * intros q. apply none_iff.
  - unfold reimburse_start; cbn [fst snd]. destruct (timer_guard_new _ s) as [s1|] eqn:E; intros H;
      [|inv_res; apply taken_none; auto].
    unfold reimburse_next, end_timer in H. destruct (reimb_requests (withdrawals s1)) as [|[i q] l]; inv_res.
    + eapply taken_dropped; eauto.
    + eapply taken_timer; eauto.
  - unfold refresh_task_start; cbn [fst snd]. destruct (refresh_start now s) eqn:Er; intros H; inv_res;
      try (apply taken_none; reflexivity).
    eapply taken_timer; eauto. eapply refresh_start_wait; eauto.
Qed.

Lemma guard_new_inv p s s' : guard_new p s = ROk s' ->
  bmem p (pending_withdrawal_principals s) = false /\
  (List.length (pending (withdrawals s)) < 100)%nat /\
  (List.length (pending_withdrawal_principals s) < 100)%nat /\
  s' = set_pending_withdrawal_principals (binsert p tt (pending_withdrawal_principals s)) s.
Proof.
  unfold guard_new, MAX_PENDING, MAX_CONCURRENT.
  destruct (N.leb_spec 100 (N.of_nat (List.length (pending (withdrawals s))))); [discriminate|].
  destruct (bmem p _); [discriminate|].
  destruct (N.leb_spec 100 (N.of_nat (List.length (pending_withdrawal_principals s)))); [discriminate|].
  injection 1 as <-. repeat split; auto; lia.
Qed.
Lemma taken_principal p s s' l g : guard_new p s = ROk s' ->
  (l = [] /\ g = gs s' \/ l = [TaskRefreshGasFeeEstimate] /\
     exists s2, timer_guard_new TaskRefreshGasFeeEstimate s' = Some s2 /\ g = gs s2) ->
  taken l (Some p) (gs s) g.
Proof.
  intros H Hl. apply guard_new_inv in H as (H1 & H2 & H3 & ->).
  assert (Hlen : (List.length (binsert p tt (pending_withdrawal_principals s)) <= 100)%nat).
  { rewrite binsert_length_new; [lia|]. apply bmem_false. auto. }
  destruct Hl as [(-> & ->)|(-> & s2 & E & ->)].
  - constructor; cbn; auto.
    + intros T. tauto.
    + intros T [].
    + intros q. rewrite bmem_insert_iff. intuition congruence.
    + intros q. injection 1 as <-. auto.
    + apply bsorted_insert.
  - apply timer_guard_new_inv in E as [E1 E2]. rewrite E2. cbn in *. constructor; cbn; auto.
    + intros T. rewrite bmem_insert_iff. intuition.
    + intros T [<-|[]]. auto.
    + intros q. rewrite bmem_insert_iff. intuition congruence.
    + intros q. injection 1 as <-. auto.
    + apply bsorted_insert.
Qed.
Lemma taken_refused p s s' : guard_new p s = ROk s' -> taken [] None (gs s) (gs (guard_drop p s')).
Proof.
  intros H. apply guard_new_inv in H as (H1 & H2 & H3 & ->). constructor; cbn; auto; try discriminate.
  - intros T. tauto.
  - intros T [].
  - intros q. rewrite bmem_remove_iff, bmem_insert_iff. split; [intuition|].
    intros [Hq|]; [|discriminate]. split; auto. intros ->. congruence.
  - intros. apply bsorted_remove, bsorted_insert; auto.
  - intros. etransitivity; [apply bremove_length_le|]. rewrite binsert_length_new; [lia|].
    apply bmem_false. auto.
Qed.

Lemma call_taken now u c c' nx : call_start now u c = Done (c', nx) ->
  taken (held nx) (owner nx) (gs (fst c)) (gs (fst c')) /\
  (forall p, owner nx = Some p -> withdrawing u = Some p) /\
  (forall t, nx = Await t -> exists p, withdrawing u = Some p /\ owner nx = Some p).
Proof.
  intros H. apply (call_after keccak) in H. destruct c as [s log], u; cbn [call_next] in H.
  - destruct H as (_ & s1 & Hg & [(-> & -> & _)|(d & _ & _ & [(-> & _ & ->)|(_ & -> & Hn)])]).
    + split; [eapply taken_refused; eauto|]. split; discriminate.
    + split; [eapply taken_refused; eauto|]. split; discriminate.
    + cbn in Hn. destruct (withdrawal_native_fee s1); [destruct Hn as [_ ->]|subst nx];
        (split; [eapply taken_principal; eauto; left; split; reflexivity|split; [intros q Hq; exact Hq|intros; cbn; eauto]]).
  - destruct H as (_ & s1 & Hg & [(e & -> & ->)|(d & tk & _ & _ & _ & [(g & t' & -> & -> & Hn)|(s2 & Hr & -> & ->)])]).
    + split; [eapply taken_refused; eauto|]. split; discriminate.
    + unfold estimated_next in Hn.
      destruct (withdrawal_native_fee s1); [destruct Hn as [_ ->]|subst t'];
        (split; [eapply taken_principal; eauto; left; split; reflexivity|split; [intros q Hq; exact Hq|intros; cbn; eauto]]).
    + split; [eapply taken_principal; eauto; right; split; [reflexivity|];
        exists s2; split; [eapply refresh_start_wait; eauto|reflexivity]|]. split; [intros q Hq; exact Hq|intros; cbn; eauto].
  - destruct H as (-> & _ & t & _ & H). split; [|split; discriminate].
    apply taken_none. eapply gs_event in H. exact H.
  - destruct H as (-> & n & t & _ & _ & ->). split; [|split; discriminate]. apply taken_none. auto.
Qed.

End Guards.
