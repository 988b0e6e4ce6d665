(** * Small steps without any invariant.

    Like Segments.v, but a callback is decomposed without knowing that the withdrawal
    tables are well formed. Used for facts that hold even if the operator sets the
    transaction nonce back. *)

From Verif Require Import Base BMap MultiKeyMap MultiKeyMapFacts Bytes Types Amount Tx CallData
  Network Hex Transactions State Audit Ranges Rlp Parser Memo Driver Sys SysSpec WtInv StateEquiv
  Segments SysFacts CoreInv.

Inductive wmicro (J : EventType -> Prop) (now : N) : Core -> Core -> Prop :=
| WVol s s' log : vstep s s' -> wmicro J now (s, log) (s', log)
| WEvent s s' log e : J e -> apply_state_transition s e = Done s' ->
    wmicro J now (s, log) (s', record_event now e log)
| WQueue s log r w' : reschedule_withdrawal_request r (withdrawals s) = Done w' ->
    wmicro J now (s, log) (set_withdrawals w' s, log).

Inductive wmicros (J : EventType -> Prop) (now : N) : Core -> Core -> Prop :=
| WNil c : wmicros J now c c
| WCons c1 c2 c3 : wmicro J now c1 c2 -> wmicros J now c2 c3 -> wmicros J now c1 c3.

Lemma wmicros_one (J : EventType -> Prop) now c1 c2 : wmicro J now c1 c2 -> wmicros J now c1 c2.
Proof. intros; eapply WCons; eauto. apply WNil. Qed.
Lemma wmicros_trans (J : EventType -> Prop) now c1 c2 c3 :
  wmicros J now c1 c2 -> wmicros J now c2 c3 -> wmicros J now c1 c3.
Proof. induction 1; auto. intros. eapply WCons; eauto. Qed.
Lemma wmicros_mono (J J' : EventType -> Prop) now c1 c2 :
  (forall e, J e -> J' e) -> wmicros J now c1 c2 -> wmicros J' now c1 c2.
Proof.
  intros HJ. induction 1; [apply WNil|]. eapply WCons; eauto.
  inversion H; subst; [eapply WVol|eapply WEvent|eapply WQueue]; eauto.
Qed.
Lemma wmicros_event (J : EventType -> Prop) now e c c' :
  J e -> process_event now e c = Done c' -> wmicros J now c c'.
Proof.
  destruct c as [s log]. unfold process_event. cbn. intros HJ H. inv_res.
  apply wmicros_one. eapply WEvent; eauto.
Qed.
Lemma wmicros_events (J : EventType -> Prop) now es : forall c c',
  (forall e, In e es -> J e) -> process_events now es c = Done c' -> wmicros J now c c'.
Proof.
  unfold process_events. induction es as [|e es IH]; cbn; intros c c' HJ H.
  - inv_res. apply WNil.
  - inv_res. eapply wmicros_trans; [eapply wmicros_event; eauto|apply IH; auto].
Qed.

(** An invariant argument *)
Lemma wmicros_inv (J : EventType -> Prop) now (I : Core -> Prop) :
  (forall c c', I c -> wmicro J now c c' -> I c') ->
  forall c c', wmicros J now c c' -> I c -> I c'.
Proof. intros H. induction 1; eauto. Qed.
(** ... and for a reflexive and transitive relation *)
Lemma wmicros_rel (J : EventType -> Prop) now (R : Core -> Core -> Prop) :
  (forall c, R c c) -> (forall a b c, R a b -> R b c -> R a c) ->
  (forall c c', wmicro J now c c' -> R c c') ->
  forall c c', wmicros J now c c' -> R c c'.
Proof. intros H1 H2 H3. induction 1; eauto. Qed.

Lemma micros_weak (J : State -> EventType -> Prop) (J' : EventType -> Prop) now c c' :
  (forall s e, J s e -> J' e) -> micros J now c c' -> wmicros J' now c c'.
Proof.
  intros HJ. induction 1; [apply WNil|]. eapply WCons; eauto.
  inversion H; subst; [eapply WVol|eapply WEvent|eapply WQueue]; eauto.
Qed.

Section Weak.
Variable self : Principal.
Variable keccak : list N -> Hash.

Definition creation (t : Task) (e : EventType) : Prop :=
  exists g id x, t = TRetrieveCount g /\ (e = EvCreatedTransaction id x \/ e = EvReplacedTransaction id x).
Definition wemits (t : Task) (r : Reply) (e : EventType) : Prop :=
  (exists s, emits keccak t r s e) \/ creation t e.

Lemma wmicros_create (J : EventType -> Prop) now g : forall l c c',
  (forall id x, J (EvCreatedTransaction id x)) ->
  rfold (create_one now g) c l = Done c' -> wmicros J now c c'.
Proof.
  induction l as [|r l IH]; cbn; intros c c' HJ H; inv_res; [apply WNil|].
  eapply wmicros_trans; [|apply IH; eauto]. unfold create_one in H0. inv_res. destruct x0.
  - eapply wmicros_event; eauto.
  - inv_res. destruct c as [s log]. apply wmicros_one. cbn in *. eapply WQueue; eauto.
Qed.
Lemma wmicros_resubmit (J : EventType -> Prop) now n g c c' :
  (forall id x, J (EvReplacedTransaction id x)) ->
  resubmit_batch now n g c = Done c' -> wmicros J now c c'.
Proof.
  unfold resubmit_batch. intros HJ. destruct (mkm_is_empty _); [intros H; inv_res; apply WNil|].
  destruct n; intros H; inv_res; [|apply WNil]. eapply wmicros_events; eauto.
  intros e He. apply in_flat_map in He as ([[id t]|?] & _ & He); cbn in He; [|destruct He].
  destruct He as [<-|[]]. auto.
Qed.

Lemma resume_wmicros now t r c c' nx :
  resume keccak now t r c = Done (c', nx) -> wmicros (wemits t r) now c c'.
Proof.
  intros H.
  assert (Hd : (exists g, t = TRetrieveCount g) \/ ~ (exists g, t = TRetrieveCount g)).
  { destruct t; try (right; intros (? & ?); discriminate). eauto. }
  destruct Hd as [(g & ->)|Hd].
  - destruct r; cbn in H; try discriminate. unfold retrieve_count_reply in H. inv_res.
    eapply wmicros_trans; [|eapply wmicros_trans].
    + eapply wmicros_resubmit; eauto. intros. right. exists g. eauto 10.
    + eapply wmicros_create; eauto. intros. right. exists g. eauto 10.
    + eapply (micros_weak (fun _ _ => False)); [intros ? ? []|]. eapply micros_sign_start; eauto.
  - eapply micros_weak; [|eapply resume_micros_gen; [|exact H]; tauto].
    intros s e He. left. eauto.
Qed.

(** The events a step may record *)
Definition step_emits (s : Sys) (l : Label) (e : EventType) : Prop :=
  match l with
  | LCall u _ => exists st, call_emits u st e
  | LDeliver id trap _ =>
      exists t r, bget id (sys_tasks s) = Some {| fl_task := t; fl_reply := Some r |} /\
        (wemits t r e \/ In e (task_quarantine t))
  | _ => False
  end.

Lemma trans_wmicros s l s' :
  Trans self keccak s l s' ->
  (exists now, wmicros (step_emits s l) now (sys_core s) (sys_core s')) \/
  (exists a now, l = LUpgrade a now /\ sys_tasks s = [] /\
     canister_upgrade now a (sys_core s) = Done (sys_core s')).
Proof.
  intros H. destruct H; cbn; rewrite ?install_core; cbn; try (left; exists 0; apply WNil).
  - left. exists now. apply timer_micros in H0 as [Hv Hl]. destruct (sys_core s) as [st log], c. cbn in *. subst.
    apply wmicros_one, WVol; auto.
  - left. exists now. eapply micros_weak; [|eapply call_micros; eauto]. intros; cbn; eauto.
  - left. exists now. eapply wmicros_mono; [|eapply resume_wmicros; eauto]. intros; cbn; eauto.
  - left. exists now. destruct (cleanup_micros now t (sys_core s)) as (c' & Hc & Hm).
    assert (c' = c) by congruence. subst. eapply micros_weak; [|exact Hm]. intros; cbn; eauto 6.
  - right. eauto.
Qed.

(** What holds of every suspended function *)
Lemma tasks_reach (env : Sys -> Label -> Prop) (P : Task -> Prop) :
  (forall now k c c' t', timer_start now k c = Done (c', Await t') -> P t') ->
  (forall now u c c' t', call_start now u c = Done (c', Await t') -> P t') ->
  (forall now t r c c' t', P t -> resume keccak now t r c = Done (c', Await t') -> P t') ->
  forall s, reach self keccak env s ->
    forall id fl, bget id (sys_tasks s) = Some fl -> P (fl_task fl).
Proof.
  intros Ht Hc Hr s. apply (reach_inv self keccak env (fun s =>
    forall id fl, bget id (sys_tasks s) = Some fl -> P (fl_task fl))).
  - intros now a s0 H id fl. apply sys_init_inv in H as (_ & _ & _ & -> & _). discriminate.
  - intros s0 l s' IH _ H id' fl. destruct H; cbn.
    + apply IH.
    + rewrite install_tasks. destruct (keqb id' (sys_next s0)); [|apply IH].
      destruct nx; [|discriminate]. injection 1 as <-. eapply Ht; eauto.
    + rewrite install_tasks. destruct (keqb id' (sys_next s0)); [|apply IH].
      destruct nx; [|discriminate]. injection 1 as <-. eapply Hc; eauto.
    + apply IH.
    + apply IH.
    + rewrite bget_insert. destruct (keqb id' id); [|apply IH]. injection 1 as <-. exact (IH _ _ H).
    + rewrite bget_insert. destruct (keqb id' id); [|apply IH]. injection 1 as <-. exact (IH _ _ H).
    + rewrite install_tasks. destruct (keqb id' id); [|apply IH].
      destruct nx; [|discriminate]. injection 1 as <-. eapply Hr; [|eauto]. exact (IH _ _ H0).
    + rewrite bget_remove. destruct (keqb id' id); [discriminate|]. apply IH.
    + apply IH.
Qed.

End Weak.
