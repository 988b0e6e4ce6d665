(** * TimeFacts: the log is in order of time *)

From Coq Require Import Sorting.Sorted.
From Verif Require Import Base BMap MultiKeyMap Bytes Types Amount Tx CallData Network Hex
  Transactions State Audit Ranges Rlp Parser Memo Driver Sys SysSpec SysFacts WithdrawSpec TimeSpec
  Segments WeakSteps Tasks Views CoreInv.

Lemma sorted_app {A} (R : A -> A -> Prop) l l' :
  StronglySorted R l -> StronglySorted R l' -> (forall x y, In x l -> In y l' -> R x y) -> StronglySorted R (l ++ l').
Proof.
  intros H H' Hx. induction H as [|a l Hl IH Ha]; cbn; [exact H'|]. constructor.
  - apply IH. intros x y Hi. apply Hx. right. exact Hi.
  - apply Forall_app. split; [exact Ha|]. apply Forall_forall. intros y Hy. apply Hx; [left; reflexivity|exact Hy].
Qed.
Lemma sorted_same now es : (forall e, In e es -> ev_timestamp e = now) -> chronological es.
Proof.
  intros H. induction es as [|e es IH]; [constructor|]. constructor.
  - apply IH. intros x Hx. apply H. right. exact Hx.
  - apply Forall_forall. intros x Hx. rewrite (H e), (H x); [lia|right; exact Hx|left; reflexivity].
Qed.

Lemma wmicros_times (J : EventType -> Prop) now c c' : wmicros J now c c' ->
  exists es, snd c' = snd c ++ es /\ forall e, In e es -> ev_timestamp e = now /\ J (ev_payload e).
Proof.
  induction 1 as [c|c1 c2 c3 H _ (es & -> & IH)].
  - exists []. rewrite app_nil_r. split; [reflexivity|]. intros e [].
  - destruct H; cbn [snd]; [exists es; auto| |exists es; auto].
    exists ({| ev_timestamp := now; ev_payload := e |} :: es). split.
    + unfold record_event. rewrite <- app_assoc. reflexivity.
    + intros x [<-|Hx]; [|apply IH; exact Hx]. cbn. auto.
Qed.

(** The time noted by a waiting withdrawal is not later than [n] *)
Definition noted (n : N) (t : Task) : Prop :=
  match t with
  | TNativeBurn j => nj_now j <= n
  | TErc20GasBurn j | TErc20Burn j _ => ej_now j <= n
  | _ => True
  end.
Lemma noted_later n m t : n <= m -> noted n t -> noted m t.
Proof. intros H. destruct t; cbn; auto; lia. Qed.

(** The acceptance in [e] is not dated after the event itself *)
Definition dated_before (e : Event) : Prop :=
  forall r t, In r (accepted_by (ev_payload e)) -> wr_created_at r = Some t -> t <= ev_timestamp e.

Record timely (s : Sys) : Prop := {
  tm_sorted : chronological (sys_log s);
  tm_clock : forall e, In e (sys_log s) -> ev_timestamp e <= sys_clock s;
  tm_dated : forall e, In e (sys_log s) -> dated_before e;
  tm_tasks : forall id fl, bget id (sys_tasks s) = Some fl -> noted (sys_clock s) (fl_task fl)
}.

Lemma timely_grow log now es clock :
  chronological log -> (forall e, In e log -> ev_timestamp e <= clock) -> (forall e, In e log -> dated_before e) ->
  clock <= now -> (forall e, In e es -> ev_timestamp e = now /\ dated_before e) ->
  chronological (log ++ es) /\ (forall e, In e (log ++ es) -> ev_timestamp e <= now) /\
  (forall e, In e (log ++ es) -> dated_before e).
Proof.
  intros H1 H2 H3 Hn He. split; [|split].
  - apply sorted_app; [exact H1|apply (sorted_same now); intros e Hi; apply He; exact Hi|].
    intros x y Hx Hy. apply H2 in Hx. apply He in Hy as [-> _]. lia.
  - intros e Hi. apply in_app_iff in Hi as [Hi|Hi]; [apply H2 in Hi; lia|]. apply He in Hi as [-> _]. lia.
  - intros e Hi. apply in_app_iff in Hi as [Hi|Hi]; [apply H3; exact Hi|]. apply He; exact Hi.
Qed.

Section Reach.
Variable self : Principal.
Variable keccak : list N -> Hash.
Variable env : Sys -> Label -> Prop.

Lemma timer_noted now k c c' t : timer_start now k c = Done (c', Await t) -> noted now t.
Proof. intros H. apply timer_after in H. cbn in H. destruct t; cbn; auto; destruct H. Qed.
Lemma estimated_noted now j g s t : estimated_next now j g s t -> noted now t.
Proof.
  unfold estimated_next. destruct (withdrawal_native_fee s); [intros (_ & ->)|intros ->]; cbn; [exact Logic.I|lia].
Qed.
Lemma call_noted now u c c' t : call_start now u c = Done (c', Await t) -> noted now t.
Proof.
  intros H. apply (call_after keccak) in H. destruct u; cbn in H.
  - destruct H as (_ & s & _ & [(E & _)|(d & _ & _ & [(E & _)|(_ & _ & E)])]); try discriminate E.
    destruct (withdrawal_native_fee s); [destruct E as (_ & E)|]; injection E as ->; cbn; [exact Logic.I|lia].
  - destruct H as (_ & s & _ & [(e & E & _)|(d & tk & _ & _ & _ & [(g & t' & _ & E & Hx)|(s' & _ & _ & E)])]); try discriminate E.
    + injection E as ->. eapply estimated_noted. exact Hx.
    + injection E as ->. exact Logic.I.
  - destruct H as (E & _). discriminate E.
  - destruct H as (_ & x & y & _ & _ & E). discriminate E.
Qed.
Lemma resume_noted now n t r c c' t' : n <= now -> noted n t -> resume keccak now t r c = Done (c', Await t') -> noted now t'.
Proof.
  intros Hn Ht H. apply resume_after in H. cbn [after] in H. destruct t'; cbn [noted]; auto; cbn [next_spec] in H.
  - destruct H as (j0 & b & fee & _ & _ & _ & _ & _ & ->). cbn. lia.
  - destruct H as [(j0 & h & g & _ & _ & H)|(j0 & b & _ & _ & _ & ->)]; [|cbn; lia]. apply estimated_noted in H. exact H.
  - destruct H as (-> & _). cbn [noted] in Ht. lia.
Qed.

Lemma dated_nothing e : accepted_by (ev_payload e) = [] -> dated_before e.
Proof. intros H r t Hr. rewrite H in Hr. destruct Hr. Qed.

Lemma dated_emits now t r e : noted now t -> ev_timestamp e = now -> wemits keccak t r (ev_payload e) -> dated_before e.
Proof.
  intros Ht He [(st & H)|H].
  - apply emits_inv in H. destruct e as [ts p]. cbn [ev_payload ev_timestamp] in *. subst ts.
    destruct p; try (apply dated_nothing; reflexivity); intros q n [<-|[]] E; cbn [emits_of] in H; cbn [ev_timestamp].
    + destruct H as (j & b & -> & _ & ->). cbn in E, Ht. injection E as <-. exact Ht.
    + destruct H as (j & i & b & -> & _ & ->). cbn in E, Ht. injection E as <-. exact Ht.
  - destruct H as (g & i & y & _ & [E | E]); apply dated_nothing; rewrite E; reflexivity.
Qed.

Lemma timely_trans s l s' : timely s -> Trans self keccak s l s' -> timely s'.
Proof.
  intros [H1 H2 H3 H4] H. unfold sys_log in *. destruct H.
  - constructor; assumption.
  - apply timer_micros in H0 as Hm. destruct Hm as [_ Hl].
    constructor; unfold sys_log; cbn [bump_next sys_core sys_clock sys_tasks]; rewrite ?install_core, ?install_clock; cbn [with_core sys_core sys_clock]; rewrite ?Hl; auto.
    + intros e He. apply H2 in He. lia.
    + intros id fl. rewrite install_tasks. destruct (keqb id (sys_next s)).
      * destruct nx as [t|]; [|discriminate]. injection 1 as <-. exact (timer_noted _ _ _ _ _ H0).
      * intros Hg. eapply noted_later; [exact H|]. exact (H4 _ _ Hg).
  - pose proof (micros_weak _ (fun e => exists st, call_emits u st e) _ _ _ (fun st e X => ex_intro _ st X) (call_micros _ _ _ _ _ H0)) as Hm.
    apply wmicros_times in Hm as (es & Hl & He).
    destruct (timely_grow (snd (sys_core s)) now es (sys_clock s) H1 H2 H3 H) as (G1 & G2 & G3).
    { intros e Hi. destruct (He e Hi) as [E1 (st & E2)]. split; [exact E1|]. apply dated_nothing.
      destruct u; cbn in E2; try destruct E2. destruct H6 as (tk & _ & ->). reflexivity. }
    constructor; unfold sys_log; cbn [bump_next sys_core sys_clock sys_tasks]; rewrite ?install_core, ?install_clock; cbn [with_core with_call sys_core sys_clock]; rewrite ?Hl; auto.
    intros id fl. rewrite install_tasks. destruct (keqb id (sys_next s)).
    + destruct nx as [t|]; [|discriminate]. injection 1 as <-. exact (call_noted _ _ _ _ _ H0).
    + intros Hg. eapply noted_later; [exact H|]. exact (H4 _ _ Hg).
  - constructor; unfold sys_log; cbn; auto.
    + intros e He. apply H2 in He. lia.
    + intros id fl Hg. eapply noted_later; [exact H|]. exact (H4 _ _ Hg).
  - constructor; unfold sys_log; cbn; auto.
    + intros e He. apply H2 in He. lia.
    + intros id fl Hg. eapply noted_later; [exact H|]. exact (H4 _ _ Hg).
  - constructor; unfold sys_log; cbn; auto. intros i fl. rewrite bget_insert. destruct (keqb i id); [|apply H4].
    injection 1 as <-. exact (H4 _ _ H).
  - constructor; unfold sys_log; cbn; auto. intros i fl. rewrite bget_insert. destruct (keqb i id); [|apply H4].
    injection 1 as <-. exact (H4 _ _ H).
  - pose proof (resume_wmicros keccak _ _ _ _ _ _ H5) as Hm. apply wmicros_times in Hm as (es & Hl & He).
    pose proof (H4 _ _ H0) as Ht. cbn [fl_task] in Ht.
    destruct (timely_grow (snd (sys_core s)) now es (sys_clock s) H1 H2 H3 H) as (G1 & G2 & G3).
    { intros e Hi. destruct (He e Hi) as [E1 E2]. split; [exact E1|]. eapply dated_emits; [|exact E1|exact E2].
      eapply noted_later; [exact H|exact Ht]. }
    constructor; unfold sys_log; rewrite ?install_core, ?install_clock; cbn [with_core with_queries sys_core sys_clock]; rewrite ?Hl; auto.
    intros i fl. rewrite install_tasks. destruct (keqb i id).
    + destruct nx as [t'|]; [|discriminate]. injection 1 as <-. exact (resume_noted _ _ _ _ _ _ _ H Ht H5).
    + intros Hg. eapply noted_later; [exact H|]. exact (H4 _ _ Hg).
  - destruct (cleanup_micros now t (sys_core s)) as (c' & Hc & Hm). assert (c' = c) by congruence. subst c'.
    pose proof (micros_weak _ (fun e => In e (task_quarantine t)) _ _ _ (fun st e X => X) Hm) as Hw.
    apply wmicros_times in Hw as (es & Hl & He).
    destruct (timely_grow (snd (sys_core s)) now es (sys_clock s) H1 H2 H3 H) as (G1 & G2 & G3).
    { intros e Hi. destruct (He e Hi) as [E1 E2]. split; [exact E1|]. apply dated_nothing.
      destruct t; cbn in E2; try destruct E2 as [<-|[]]; try destruct E2; reflexivity. }
    constructor; unfold sys_log; cbn [install with_outcome with_tasks with_core sys_core sys_clock sys_tasks]; rewrite ?Hl; auto.
    intros i fl. rewrite bget_remove. destruct (keqb i id); [discriminate|]. intros Hg. eapply noted_later; [exact H|]. exact (H4 _ _ Hg).
  - assert (Hl : exists es, snd c = snd (sys_core s) ++ es /\ forall e, In e es -> ev_timestamp e = now /\ dated_before e).
    { unfold canister_upgrade, post_upgrade in H5. apply rbind_done in H5 as (st & _ & Hu). unfold pre_upgrade, record_event in Hu.
      destruct a as [a|].
      - unfold process_event in Hu. apply rbind_done in Hu as (st' & _ & Hu). injection Hu as <-. cbn [snd record_event]. unfold record_event. rewrite <- app_assoc.
        eexists. split; [reflexivity|]. intros e [<-|[<-|[]]]; (split; [reflexivity|apply dated_nothing; reflexivity]).
      - injection Hu as <-. eexists. split; [reflexivity|]. intros e [<-|[]]. split; [reflexivity|apply dated_nothing; reflexivity]. }
    destruct Hl as (es & Hl & He). destruct (timely_grow (snd (sys_core s)) now es (sys_clock s) H1 H2 H3 H He) as (G1 & G2 & G3).
    constructor; unfold sys_log; cbn [with_core sys_core sys_clock sys_tasks]; rewrite ?Hl; auto.
    intros i fl Hg. eapply noted_later; [exact H|]. exact (H4 _ _ Hg).
Qed.

Lemma trans_times s l s' : Trans self keccak s l s' ->
  sys_clock s <= sys_clock s' /\
  exists es, sys_log s' = sys_log s ++ es /\ forall e, In e es -> ev_timestamp e = sys_clock s'.
Proof.
  intros H. unfold sys_log. destruct H; cbn [bump_next sys_core sys_clock]; rewrite ?install_core, ?install_clock;
    cbn [with_core with_call with_queries with_outcome with_op answered with_tasks sys_core sys_clock];
    (split; [first [assumption|lia]|]); try (exists []; rewrite app_nil_r; split; [reflexivity|intros e []]; fail).
  - apply timer_micros in H0 as [_ ->]. exists []. rewrite app_nil_r. split; [reflexivity|intros e []].
  - pose proof (micros_weak _ (fun _ => True) _ _ _ (fun _ _ _ => Logic.I) (call_micros _ _ _ _ _ H0)) as Hm.
    apply wmicros_times in Hm as (es & Hl & He). exists es. split; [exact Hl|]. intros e Hi. apply He. exact Hi.
  - pose proof (resume_wmicros keccak _ _ _ _ _ _ H1) as Hm. apply wmicros_times in Hm as (es & Hl & He).
    exists es. split; [exact Hl|]. intros e Hi. apply He. exact Hi.
  - destruct (cleanup_micros now t (sys_core s)) as (c' & Hc & Hm). assert (c' = c) by congruence. subst c'.
    pose proof (micros_weak _ (fun _ => True) _ _ _ (fun _ _ _ => Logic.I) Hm) as Hw.
    apply wmicros_times in Hw as (es & Hl & He). exists es. split; [exact Hl|]. intros e Hi. apply He. exact Hi.
  - unfold canister_upgrade, post_upgrade in H1. apply rbind_done in H1 as (st & _ & Hu). unfold pre_upgrade, record_event in Hu.
    destruct a as [a|].
    + unfold process_event in Hu. apply rbind_done in Hu as (st' & _ & Hu). injection Hu as <-. cbn [snd record_event]. unfold record_event. rewrite <- app_assoc.
      eexists. split; [reflexivity|]. intros e [<-|[<-|[]]]; reflexivity.
    + injection Hu as <-. eexists. split; [reflexivity|]. intros e [<-|[]]. reflexivity.
Qed.

Lemma timely_reach s : reach self keccak env s -> timely s.
Proof.
  apply (reach_inv self keccak env timely).
  - intros now a s0 H. apply sys_init_inv in H as (st & _ & Hc & Ht & _ & Hk & _).
    constructor; unfold sys_log; rewrite ?Hc, ?Ht, ?Hk; cbn.
    + constructor; constructor.
    + intros e [<-|[]]. cbn. lia.
    + intros e [<-|[]]. apply dated_nothing. reflexivity.
    + discriminate.
  - intros x l x' IH _ H. exact (timely_trans x l x' IH H).
Qed.
End Reach.
