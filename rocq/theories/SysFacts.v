(** * The cases of a system step. *)

From Verif Require Import Base BMap MultiKeyMap MultiKeyMapFacts Bytes Types Amount Tx CallData
  Network Hex Transactions State Audit Ranges Rlp Parser Memo Driver Sys SysSpec WtInv StateEquiv
  Segments.

Section Facts.
Variable self : Principal.
Variable keccak : list N -> Hash.
Notation step := (step self keccak).
Notation ledger_allows := (ledger_allows self).
Notation task_call := (task_call self).

Definition answered (id : N) (t : Task) (r : Reply) (s : Sys) : Sys :=
  with_tasks (binsert id {| fl_task := t; fl_reply := Some r |} (sys_tasks s)) s.

Inductive Trans (s : Sys) : Label -> Sys -> Prop :=
| T_stay l : Trans s l s
| T_timer k now c nx : sys_clock s <= now -> timer_start now k (sys_core s) = Done (c, nx) ->
    Trans s (LTimer k now) (bump_next (install (sys_next s) nx (with_core c now s)))
| T_call u now c nx : sys_clock s <= now -> call_start now u (sys_core s) = Done (c, nx) ->
    Trans s (LCall u now)
      (bump_next (install (sys_next s) nx (with_core c now (with_call (sys_next s) u s))))
| T_timer_trap k now : sys_clock s <= now ->
    Trans s (LTimer k now) (bump_next (with_outcome (sys_next s) OutTrap (with_core (sys_core s) now s)))
| T_call_trap u now : sys_clock s <= now ->
    Trans s (LCall u now) (bump_next (with_outcome (sys_next s) OutTrap
      (with_core (sys_core s) now (with_call (sys_next s) u s))))
| T_op id t c b : bget id (sys_tasks s) = Some {| fl_task := t; fl_reply := None |} ->
    task_call t = Some c -> ledger_allows (sys_ops s) c b = true ->
    Trans s (LAnswer id (ReLedger (LedgerOk b)))
      (with_op (c, b) (answered id t (ReLedger (LedgerOk b)) s))
| T_answer id t r : bget id (sys_tasks s) = Some {| fl_task := t; fl_reply := None |} ->
    reply_fits self t r = true -> (forall b, r <> ReLedger (LedgerOk b)) ->
    Trans s (LAnswer id r) (answered id t r s)
| T_deliver id now t r c nx : sys_clock s <= now ->
    bget id (sys_tasks s) = Some {| fl_task := t; fl_reply := Some r |} ->
    resume keccak now t r (sys_core s) = Done (c, nx) ->
    Trans s (LDeliver id false now)
      (install id nx (with_queries (task_query t r) (with_core c now s)))
| T_trap id trap now t r c : sys_clock s <= now ->
    bget id (sys_tasks s) = Some {| fl_task := t; fl_reply := Some r |} ->
    (trap = true \/ exists w, resume keccak now t r (sys_core s) = Panic w) ->
    cleanup now t (sys_core s) = Done c ->
    Trans s (LDeliver id trap now) (install id (Finish OutTrap) (with_core c now s))
| T_upgrade a now c : sys_clock s <= now -> sys_tasks s = [] ->
    canister_upgrade now a (sys_core s) = Done c ->
    Trans s (LUpgrade a now) (with_core c now s).

Lemma step_trans s l : Trans s l (step s l).
Proof.
  destruct l as [k now|u now|id r|id trap now|a now]; cbn.
  - destruct (N.ltb_spec now (sys_clock s)); [apply T_stay|]. unfold start_task.
    destruct (timer_start now k (sys_core s)) as [[c nx]|] eqn:E; [apply T_timer|apply T_timer_trap]; auto.
  - destruct (N.ltb_spec now (sys_clock s)); [apply T_stay|]. unfold start_task. cbn.
    destruct (call_start now u (sys_core s)) as [[c nx]|] eqn:E; [apply T_call|apply T_call_trap]; auto.
  - destruct (bget id (sys_tasks s)) as [[t [r'|]]|] eqn:E; try apply T_stay.
    destruct (reply_fits self t r) eqn:Ef; [|apply T_stay].
    assert (Hno : (forall b, r <> ReLedger (LedgerOk b)) -> Trans s (LAnswer id r) (answered id t r s)).
    { intros. eapply T_answer; eauto. }
    destruct (task_call t) as [c|] eqn:Ec.
    + destruct r as [[b|e|]| | | | | | |]; try (apply Hno; congruence).
      destruct (ledger_allows (sys_ops s) c b) eqn:Ea; [|apply T_stay].
      eapply T_op; eauto.
    + apply Hno. intros b ->. cbn in Ef. rewrite Ec in Ef. discriminate.
  - destruct (N.ltb_spec now (sys_clock s)); [apply T_stay|].
    destruct (bget id (sys_tasks s)) as [[t [r|]]|] eqn:E; try apply T_stay.
    unfold deliver. destruct (cleanup_micros now t (sys_core s)) as (cc & Hc & _). rewrite Hc.
    destruct trap.
    + eapply T_trap; eauto.
    + destruct (resume keccak now t r (sys_core s)) as [[c nx]|] eqn:Er.
      * eapply T_deliver; eauto.
      * eapply T_trap; eauto.
  - destruct (N.ltb_spec now (sys_clock s)); [apply T_stay|].
    destruct (sys_tasks s) eqn:Et; [|apply T_stay].
    destruct (canister_upgrade now a (sys_core s)) as [c|] eqn:E; [|apply T_stay].
    eapply T_upgrade; eauto.
Qed.

Lemma reach_inv (env : Sys -> Label -> Prop) (I : Sys -> Prop) :
  (forall now a s, sys_init now a = Done s -> I s) ->
  (forall s l s', I s -> env s l -> Trans s l s' -> I s') ->
  forall s, reach self keccak env s -> I s.
Proof. intros Hi Hs. induction 1; eauto using step_trans. Qed.

(** Like [reach_inv] with an invariant already known *)
Lemma reach_inv2 (env : Sys -> Label -> Prop) (K I : Sys -> Prop) :
  (forall s, reach self keccak env s -> K s) ->
  (forall now a s, sys_init now a = Done s -> I s) ->
  (forall s l s', K s -> K s' -> I s -> env s l -> Trans s l s' -> I s') ->
  forall s, reach self keccak env s -> I s.
Proof.
  intros HK Hi Hs. induction 1; eauto.
  eapply Hs; [apply HK; eauto| |eauto|eauto|apply step_trans]. apply HK. constructor; auto.
Qed.

Lemma reach_weaken (env env' : Sys -> Label -> Prop) s :
  (forall s l, env s l -> env' s l) -> reach self keccak env s -> reach self keccak env' s.
Proof.
  intros H. induction 1; [eapply reach_init|apply reach_step]; eauto.
Qed.

(** ** Function identifiers *)

Record ids_ok (s : Sys) : Prop := {
  ids_sorted : bsorted (sys_tasks s);
  ids_lt : forall id fl, bget id (sys_tasks s) = Some fl -> id < sys_next s
}.

Lemma sys_init_inv now a s : sys_init now a = Done s ->
  exists st, state_of_init a = ROk st /\ sys_core s = (st, record_event now (EvInit a) []) /\
    sys_tasks s = [] /\ sys_next s = 0 /\ sys_clock s = now /\ sys_ops s = [] /\ sys_calls s = [] /\
    sys_outcomes s = [] /\ sys_queries s = [].
Proof.
  unfold sys_init, canister_init. destruct (state_of_init a) as [st|]; intros H; inv_res.
  exists st. cbn. repeat split; auto.
Qed.

Lemma ids_install s id nx : ids_ok s -> id < sys_next s -> ids_ok (install id nx s).
Proof.
  intros [Hs Hl] Hid. destruct nx; constructor; cbn.
  - apply bsorted_insert; auto.
  - intros i fl. rewrite bget_insert. destruct (keqb_spec i id) as [Hk|Hk]; [|eauto].
    intros _. subst. auto.
  - apply bsorted_remove; auto.
  - intros i fl. rewrite bget_remove. destruct (keqb i id); [discriminate|eauto].
Qed.

Lemma ids_step s l s' : ids_ok s -> Trans s l s' -> ids_ok s'.
Proof.
  intros Hi H.
  assert (Hb : ids_ok (bump_next s)).
  { destruct Hi as [Hs Hl]. constructor; cbn; auto. intros. specialize (Hl _ _ H0). lia. }
  assert (Hbi : forall nx s1, sys_tasks s1 = sys_tasks s -> sys_next s1 = sys_next s ->
    ids_ok (bump_next (install (sys_next s) nx s1))).
  { intros nx s1 H1 H2. destruct Hb as [Hs Hl]. destruct nx; constructor; cbn; rewrite ?H1, ?H2; cbn in *.
    - apply bsorted_insert; auto.
    - intros i fl. rewrite bget_insert. destruct (keqb_spec i (sys_next s)) as [Hk|Hk]; [|eauto].
      intros _. subst. lia.
    - apply bsorted_remove; auto.
    - intros i fl. rewrite bget_remove. destruct (keqb i (sys_next s)); [discriminate|eauto]. }
  destruct H; auto.
  - destruct Hb; constructor; cbn; auto.
  - destruct Hb; constructor; cbn; auto.
  - destruct Hi as [Hs Hl]. constructor; cbn; [apply bsorted_insert; auto|].
    intros i fl. rewrite bget_insert. destruct (keqb_spec i id) as [Hk|Hk]; [|eauto].
    intros _. subst. eauto.
  - destruct Hi as [Hs Hl]. constructor; cbn; [apply bsorted_insert; auto|].
    intros i fl. rewrite bget_insert. destruct (keqb_spec i id) as [Hk|Hk]; [|eauto].
    intros _. subst. eauto.
  - apply ids_install; [|cbn; eapply ids_lt; eauto]. destruct Hi; constructor; auto.
  - apply ids_install; [|cbn; eapply ids_lt; eauto]. destruct Hi; constructor; auto.
  - destruct Hi; constructor; auto.
Qed.

Lemma ids_init now a s : sys_init now a = Done s -> ids_ok s.
Proof.
  intros H. apply sys_init_inv in H as (st & _ & _ & Ht & _).
  constructor; rewrite Ht; cbn; [constructor|discriminate].
Qed.

Lemma ids_reach env s : reach self keccak env s -> ids_ok s.
Proof.
  apply reach_inv; [apply ids_init|]. intros. eapply ids_step; eauto.
Qed.

Lemma fresh_id s : ids_ok s -> bget (sys_next s) (sys_tasks s) = None.
Proof.
  intros [_ Hl]. destruct (bget (sys_next s) (sys_tasks s)) eqn:E; auto.
  specialize (Hl _ _ E). lia.
Qed.

(** What the tasks are after installing a continuation *)
Lemma install_tasks id nx s i :
  bget i (sys_tasks (install id nx s)) =
  if keqb i id then match nx with Await t => Some {| fl_task := t; fl_reply := None |} | Finish _ => None end
  else bget i (sys_tasks s).
Proof.
  destruct nx; cbn; rewrite ?bget_insert, ?bget_remove; auto.
Qed.
Lemma install_core id nx s : sys_core (install id nx s) = sys_core s.
Proof. destruct nx; reflexivity. Qed.
Lemma install_ops id nx s : sys_ops (install id nx s) = sys_ops s.
Proof. destruct nx; reflexivity. Qed.

End Facts.
