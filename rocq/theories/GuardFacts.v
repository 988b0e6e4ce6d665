(** * Guards and calls in every reachable configuration. *)

From Verif Require Import Base BMap MultiKeyMap MultiKeyMapFacts Bytes Types Amount ArithFacts Tx CallData
  Network Hex Transactions State Audit Ranges Rlp Parser Memo Driver Sys SysSpec WtInv StateEquiv
  Segments Tasks SysFacts CoreInv GuardSpec Guards.

(** ** A set of guards held by the suspended functions *)

Section Guarded.
Context {X : Type}.
Variable R : Task -> X -> Prop.

Definition holder (get : N -> option Flight) (x : X) (id : N) : Prop :=
  exists fl, get id = Some fl /\ R (fl_task fl) x.
Record guarded (m : X -> Prop) (get : N -> option Flight) : Prop := {
  gd_held : forall x, m x <-> exists id, holder get x id;
  gd_uniq : forall x i j, holder get x i -> holder get x j -> i = j
}.

Definition put (id : N) (o : option Flight) (get get' : N -> option Flight) : Prop :=
  forall i, get' i = if keqb i id then o else get i.
Definition holds_new (o : option Flight) (x : X) : Prop :=
  match o with Some f => R (fl_task f) x | None => False end.

Lemma holder_put id o get get' x i : put id o get get' ->
  holder get' x i <-> (i = id /\ holds_new o x) \/ (i <> id /\ holder get x i).
Proof.
  intros Hp. unfold holder. rewrite (Hp i). destruct (keqb_spec i id) as [Hk|Hk].
  - subst i. unfold holds_new. destruct o as [f|]; split.
    + intros (fl & E & Hf). injection E as <-. auto.
    + intros [[_ H]|[H _]]; [eauto|congruence].
    + intros (fl & E & _). discriminate.
    + intros [[_ []]|[H _]]; congruence.
  - split; [auto|]. intros [[H _]|[_ H]]; [congruence|auto].
Qed.

Lemma guarded_move m m' get get' id fl o :
  guarded m get -> get id = Some fl -> put id o get get' ->
  (forall x, holds_new o x -> R (fl_task fl) x) ->
  (forall x, m' x <-> m x /\ (R (fl_task fl) x -> holds_new o x)) ->
  guarded m' get'.
Proof.
  intros [H1 H2] Hg Hp Hi Hm.
  assert (Hid : forall x, R (fl_task fl) x -> holder get x id) by (intros; exists fl; auto).
  constructor.
  - intros x. rewrite Hm, H1. split.
    + intros [(i & Hi1) Hx]. destruct (N.eq_dec i id) as [->|Hne].
      * exists id. apply (holder_put _ _ _ _ _ _ Hp). left. split; auto. apply Hx.
        destruct Hi1 as (f & E & Hf). rewrite Hg in E. injection E as <-. auto.
      * exists i. apply (holder_put _ _ _ _ _ _ Hp). right. auto.
    + intros (i & Hh). apply (holder_put _ _ _ _ _ _ Hp) in Hh as [[-> Hh]|[Hne Hh]].
      * split; [|auto]. exists id. auto.
      * split; [eauto|]. intros HR. exfalso. apply Hne. eapply H2; eauto.
  - intros x i j Hhi Hhj.
    apply (holder_put _ _ _ _ _ _ Hp) in Hhi as [[-> Hhi]|[Hne Hhi]];
    apply (holder_put _ _ _ _ _ _ Hp) in Hhj as [[-> Hhj]|[Hne' Hhj]]; eauto.
Qed.

Lemma guarded_take m m' get get' id o :
  guarded m get -> get id = None -> put id o get get' ->
  (forall x, holds_new o x -> ~ m x) ->
  (forall x, m' x <-> m x \/ holds_new o x) ->
  guarded m' get'.
Proof.
  intros [H1 H2] Hg Hp Hi Hm.
  assert (Hne : forall x i, holder get x i -> i <> id).
  { intros x i (f & E & _) ->. congruence. }
  constructor.
  - intros x. rewrite Hm, H1. split.
    + intros [(i & Hh)|Hh].
      * exists i. apply (holder_put _ _ _ _ _ _ Hp). right. eauto.
      * exists id. apply (holder_put _ _ _ _ _ _ Hp). left. auto.
    + intros (i & Hh). apply (holder_put _ _ _ _ _ _ Hp) in Hh as [[-> Hh]|[_ Hh]]; eauto.
  - intros x i j Hhi Hhj.
    apply (holder_put _ _ _ _ _ _ Hp) in Hhi as [[-> Hhi]|[Hi1 Hhi]];
    apply (holder_put _ _ _ _ _ _ Hp) in Hhj as [[-> Hhj]|[Hj1 Hhj]]; eauto.
    + exfalso. apply (Hi x Hhi). apply H1. eauto.
    + exfalso. apply (Hi x Hhj). apply H1. eauto.
Qed.

Lemma guarded_same m m' get get' :
  guarded m get -> (forall x, m' x <-> m x) ->
  (forall i, option_map fl_task (get' i) = option_map fl_task (get i)) -> guarded m' get'.
Proof.
  intros [H1 H2] Hm Hg.
  assert (Hh : forall x i, holder get' x i <-> holder get x i).
  { intros x i. unfold holder. specialize (Hg i).
    destruct (get i) as [f|], (get' i) as [f'|]; cbn in Hg; try discriminate; split; intros (y & E & Hy);
      try discriminate; injection E as <-; injection Hg as Hg; eexists; (split; [reflexivity|]); congruence. }
  constructor.
  - intros x. rewrite Hm, H1. split; intros (i & Hi); exists i; apply Hh; auto.
  - intros x i j Hi Hj. apply Hh in Hi, Hj. eauto.
Qed.
End Guarded.

Definition by_timer (t : Task) (T : TaskType) : Prop := In T (task_timers t).
Definition by_principal (t : Task) (p : Principal) : Prop := task_principal t = Some p.

Record guards_ok (s : Sys) : Prop := {
  go_timer : guarded by_timer (fun T => bmem T (active_tasks (sys_state s)) = true)
               (fun i => bget i (sys_tasks s));
  go_principal : guarded by_principal
               (fun p => bmem p (pending_withdrawal_principals (sys_state s)) = true)
               (fun i => bget i (sys_tasks s));
  go_sorted : bsorted (pending_withdrawal_principals (sys_state s));
  go_length : (List.length (pending_withdrawal_principals (sys_state s)) <= 100)%nat
}.

(** The history of calls *)
Record calls_ok (s : Sys) : Prop := {
  co_lt : forall id u, In (id, u) (sys_calls s) -> id < sys_next s;
  co_nodup : NoDup (map fst (sys_calls s));
  co_out_lt : forall id o, In (id, o) (sys_outcomes s) -> id < sys_next s;
  co_out_nodup : NoDup (map fst (sys_outcomes s));
  co_out_done : forall id o, In (id, o) (sys_outcomes s) -> bget id (sys_tasks s) = None;
  co_done : forall id u, In (id, u) (sys_calls s) -> bget id (sys_tasks s) = None ->
      exists o, In (id, o) (sys_outcomes s);
  co_call : forall id u fl, In (id, u) (sys_calls s) -> bget id (sys_tasks s) = Some fl ->
      task_principal (fl_task fl) = withdrawing u;
  co_flight : forall id fl p, bget id (sys_tasks s) = Some fl -> task_principal (fl_task fl) = Some p ->
      exists u, In (id, u) (sys_calls s) /\ withdrawing u = Some p
}.

Section Reach.
Variable self : Principal.
Variable keccak : list N -> Hash.

Lemma next_principal now t r c c' t' :
  resume keccak now t r c = Done (c', Await t') -> task_principal t' = task_principal t.
Proof.
  intros H. apply resume_after in H. cbn in H. destruct t'; cbn in H.
  - destruct H as (j' & [->|(b & ->)] & _); auto.
  - destruct H as (-> & _); auto.
  - destruct H as (l0 & i0 & q0 & -> & _); auto.
  - destruct H as (m & o & -> & _); auto.
  - destruct H as [(n & o & last & -> & _)|(j' & a & -> & _)]; auto.
  - destruct H.
  - subst; auto.
  - destruct H as (_ & g & -> & _); auto.
  - destruct H as (H & _). destruct t; try discriminate; auto.
  - destruct t; try discriminate; auto.
  - destruct H as (-> & _); auto.
  - destruct H.
  - destruct H as (j' & b & fee & -> & _ & _ & _ & _ & ->); auto.
  - destruct H as (j' & b & fee & -> & _ & _ & _ & _ & -> & _); auto.
  - destruct H.
  - destruct H as (j' & h & g & -> & _ & He). unfold estimated_next in He.
    destruct (withdrawal_native_fee _); [destruct He as [_ He]; injection He as ->|discriminate]; auto.
  - destruct H as [(j' & h & g & -> & _ & He)|(j' & b & -> & _ & _ & ->)]; auto.
    unfold estimated_next in He.
    destruct (withdrawal_native_fee _); [destruct He as [_ He]; discriminate|injection He as ->]; auto.
  - destruct H as (-> & _); auto.
  - destruct H as (j & x & fee & _ & _ & _ & -> & _ & _ & [(-> & _)|(i & -> & _)]); auto.
  - destruct H.
Qed.

Lemma held_new_timer nx T :
  holds_new by_timer (match nx with Await t => Some {| fl_task := t; fl_reply := None |} | Finish _ => None end) T
  <-> In T (held nx).
Proof. destruct nx; cbn; tauto. Qed.
Lemma held_new_principal nx p :
  holds_new by_principal (match nx with Await t => Some {| fl_task := t; fl_reply := None |} | Finish _ => None end) p
  <-> owner nx = Some p.
Proof. destruct nx; cbn; [tauto|]. split; [tauto|discriminate]. Qed.

Lemma put_install id nx s0 s :
  sys_tasks s0 = sys_tasks s ->
  put id (match nx with Await t => Some {| fl_task := t; fl_reply := None |} | Finish _ => None end)
    (fun i => bget i (sys_tasks s)) (fun i => bget i (sys_tasks (install id nx s0))).
Proof. intros H i. rewrite install_tasks, H. reflexivity. Qed.

(** A new function *)
Lemma guards_start s s' s0 nx :
  ids_ok s -> guards_ok s -> sys_tasks s0 = sys_tasks s ->
  sys_tasks s' = sys_tasks (install (sys_next s) nx s0) ->
  taken (held nx) (owner nx) (gs (sys_state s)) (gs (sys_state s')) -> guards_ok s'.
Proof.
  intros Hi [G1 G2 G3 G4] Ht Ht' [K1 K2 K3 K4 K5 K6]. unfold gs in *; cbn [fst snd] in *.
  constructor; try rewrite Ht'; auto.
  - eapply guarded_take; [exact G1|apply (fresh_id self keccak _ Hi)|apply put_install; auto| |].
    + intros T HT. apply held_new_timer in HT. apply K2 in HT. congruence.
    + intros T. rewrite held_new_timer. apply K1.
  - eapply guarded_take; [exact G2|apply (fresh_id self keccak _ Hi)|apply put_install; auto| |].
    + intros p Hp. apply held_new_principal in Hp. apply K4 in Hp. congruence.
    + intros p. rewrite held_new_principal. apply K3.
Qed.

(** A callback *)
Lemma guards_move s s' s0 id t r nx :
  guards_ok s -> bget id (sys_tasks s) = Some {| fl_task := t; fl_reply := r |} ->
  sys_tasks s0 = sys_tasks s -> sys_tasks s' = sys_tasks (install id nx s0) ->
  moves t nx (sys_state s) (sys_state s') -> guards_ok s'.
Proof.
  intros [G1 G2 G3 G4] Hg Ht Ht' [K1 K2 K3 K4 K5 K6]. unfold gs in *; cbn [fst snd] in *.
  constructor; try rewrite Ht'; auto; try lia.
  - eapply guarded_move; [exact G1|exact Hg|apply put_install; eauto| |].
    + intros T HT. apply held_new_timer in HT. apply K2; auto.
    + intros T. rewrite held_new_timer. apply K1.
  - eapply guarded_move; [exact G2|exact Hg|apply put_install; eauto| |].
    + intros p Hp. apply held_new_principal in Hp. unfold by_principal; cbn. destruct K4; congruence.
    + intros p. rewrite held_new_principal. apply K3.
Qed.

Lemma guards_answered s s' id t r :
  guards_ok s -> bget id (sys_tasks s) = Some {| fl_task := t; fl_reply := None |} ->
  sys_core s' = sys_core s -> sys_tasks s' = sys_tasks (answered id t r s) -> guards_ok s'.
Proof.
  intros [G1 G2 G3 G4] Hg Hc Ht. unfold sys_state in *.
  assert (He : forall i, option_map fl_task (bget i (sys_tasks s')) = option_map fl_task (bget i (sys_tasks s))).
  { intros i. rewrite Ht. cbn. rewrite bget_insert. destruct (keqb_spec i id) as [Hk|Hk]; auto.
    subst. rewrite Hg. reflexivity. }
  constructor; unfold sys_state; rewrite ?Hc; auto.
  - eapply guarded_same; [exact G1| |exact He]. tauto.
  - eapply guarded_same; [exact G2| |exact He]. tauto.
Qed.

Lemma guarded_empty {X} (R : Task -> X -> Prop) (m : X -> Prop) get :
  (forall x, ~ m x) -> (forall i, get i = None) -> guarded R m get.
Proof.
  intros Hm Hg. constructor.
  - intros x. split; [intros H; destruct (Hm _ H)|]. intros (i & fl & E & _). rewrite Hg in E. discriminate.
  - intros x i j (fl & E & _). rewrite Hg in E. discriminate.
Qed.

Lemma guards_none s : gs (sys_state s) = ([], []) -> sys_tasks s = [] -> guards_ok s.
Proof.
  unfold gs. injection 1 as H1 H2. intros Ht. constructor; rewrite ?H1, ?H2, ?Ht; cbn.
  - apply guarded_empty; auto.
  - apply guarded_empty; auto.
  - constructor.
  - lia.
Qed.

Lemma gs_init a s : state_of_init a = ROk s -> gs s = ([], []).
Proof.
  unfold state_of_init, ebind. intros H.
  repeat match type of H with match ?x with _ => _ end = _ => destruct x; try discriminate end.
  injection H as <-. reflexivity.
Qed.
Lemma gs_rfold l : forall s s',
  rfold (fun s e => apply_state_transition s (ev_payload e)) s l = Done s' -> gs s' = gs s.
Proof.
  induction l as [|e l IH]; cbn; intros s s' H; inv_res; auto.
  apply IH in H. apply gs_apply in H0. congruence.
Qed.
Lemma gs_replay l s : replay_events l = Done s -> gs s = ([], []).
Proof.
  unfold replay_events. destruct l as [|e l]; [discriminate|]. destruct (ev_payload e); try discriminate.
  destruct (state_of_init a) as [s0|] eqn:E; [|discriminate]. intros H. apply gs_rfold in H.
  rewrite H. eapply gs_init; eauto.
Qed.
Lemma gs_upgrade now a c c' : canister_upgrade now a c = Done c' -> gs (fst c') = ([], []).
Proof.
  unfold canister_upgrade, post_upgrade. intros H. inv_res. apply gs_replay in H0.
  destruct a; inv_res; auto. apply gs_event in H. rewrite H. exact H0.
Qed.

Lemma guards_reach env s : reach self keccak env s -> guards_ok s.
Proof.
  apply (reach_inv2 self keccak env ids_ok); [apply ids_reach| |].
  - intros now a s0 H. apply sys_init_inv in H as (st & H1 & H2 & H3 & _).
    apply guards_none; auto. unfold sys_state. rewrite H2. eapply gs_init; eauto.
  - intros s0 l s' Hi _ Hg _ Ht. destruct Ht; auto.
    + eapply (guards_start _ _ (with_core c now s0)); eauto; [reflexivity|].
      unfold sys_state. cbn. rewrite install_core. eapply timer_taken; eauto.
    + eapply (guards_start _ _ (with_core c now (with_call (sys_next s0) u s0))); eauto; [reflexivity|].
      unfold sys_state. cbn. rewrite install_core. eapply call_taken; eauto.
    + destruct Hg; constructor; auto.
    + destruct Hg; constructor; auto.
    + eapply guards_answered; eauto; reflexivity.
    + eapply guards_answered; eauto; reflexivity.
    + eapply (guards_move s0 _ (with_queries (task_query t r) (with_core c now s0)));
        [exact Hg|exact H0|reflexivity|reflexivity|]. unfold sys_state. rewrite install_core. cbn.
      eapply resume_moves; eauto.
    + eapply (guards_move s0 _ (with_core c now s0)); [exact Hg|exact H0|reflexivity|reflexivity|]. unfold sys_state. rewrite install_core. cbn.
      eapply cleanup_moves; eauto.
    + apply guards_none; auto. unfold sys_state; cbn. eapply gs_upgrade; eauto.
Qed.

(** ** Calls *)

Lemma nodup_snoc {A} (l : list A) a : NoDup l -> ~ In a l -> NoDup (l ++ [a]).
Proof.
  intros Hn Hi. induction l as [|b l IH]; cbn.
  - constructor; [intros []|constructor].
  - inversion Hn; subst. constructor.
    + rewrite in_app_iff. intros [?|[?|[]]]; [contradiction|]. subst. apply Hi; left; auto.
    + apply IH; auto. intros ?; apply Hi; right; auto.
Qed.
Lemma fst_not_in {A} (l : list (N * A)) n :
  (forall id a, In (id, a) l -> id <> n) -> ~ In n (map fst l).
Proof. intros H Hi. apply in_map_iff in Hi as ([i a] & <- & Hi). eapply H; eauto. Qed.

(** A new function *)
Lemma calls_start s s0 nx (ou : option UserCall) :
  ids_ok s -> calls_ok s -> sys_tasks s0 = sys_tasks s -> sys_next s0 = sys_next s ->
  sys_outcomes s0 = sys_outcomes s ->
  sys_calls s0 = match ou with Some u => sys_calls s ++ [(sys_next s, u)] | None => sys_calls s end ->
  (forall t, nx = Await t -> task_principal t = match ou with Some u => withdrawing u | None => None end) ->
  calls_ok (bump_next (install (sys_next s) nx s0)).
Proof.
  intros Hi [C1 C2 C3 C4 C5 C6 C7 C8] Ht Hn Ho Hc Hp.
  assert (Hold : forall id u, In (id, u) (sys_calls s0) <->
    In (id, u) (sys_calls s) \/ (id = sys_next s /\ ou = Some u)).
  { intros id u. rewrite Hc. destruct ou as [u'|].
    - rewrite in_app_iff. cbn. split.
      + intros [?|[E|[]]]; [auto|]. injection E as <- <-. auto.
      + intros [?|[-> E]]; [auto|]. injection E as <-. auto.
    - split; [auto|]. intros [?|[_ ?]]; [auto|discriminate]. }
  assert (Hfresh := fresh_id self keccak _ Hi).
  assert (Hnd : NoDup (map fst (sys_calls s0))).
  { rewrite Hc. destruct ou; auto. rewrite map_app. apply nodup_snoc; auto.
    apply fst_not_in. intros id a H. apply C1 in H. cbn. lia. }
  assert (Hcalls : sys_calls (install (sys_next s) nx s0) = sys_calls s0) by (destruct nx; reflexivity).
  assert (Hnext : sys_next (install (sys_next s) nx s0) = sys_next s) by (destruct nx; cbn; auto).
  assert (Hout : forall id o, In (id, o) (sys_outcomes (install (sys_next s) nx s0)) <->
    In (id, o) (sys_outcomes s) \/ (id = sys_next s /\ nx = Finish o)).
  { intros id o. destruct nx as [t|o']; cbn; rewrite Ho.
    - split; [auto|]. intros [?|[_ ?]]; [auto|discriminate].
    - rewrite in_app_iff. cbn. split.
      + intros [?|[E|[]]]; [auto|]. injection E as <- <-. auto.
      + intros [?|[-> E]]; [auto|]. injection E as <-. auto. }
  constructor.
  - cbn. rewrite Hcalls, Hnext. intros id u H. apply Hold in H as [H|[-> _]]; [apply C1 in H|]; lia.
  - cbn. rewrite Hcalls. auto.
  - cbn. rewrite Hnext. intros id o H. apply Hout in H as [H|[-> _]]; [apply C3 in H|]; lia.
  - cbn. destruct nx; cbn; rewrite Ho; auto. rewrite map_app. apply nodup_snoc; auto.
    apply fst_not_in. intros id a H. apply C3 in H. cbn. lia.
  - cbn [sys_tasks bump_next sys_outcomes]. intros id o H. rewrite install_tasks, Ht.
    destruct (keqb_spec id (sys_next s)) as [Hk|Hk].
    + apply Hout in H as [H|[_ ->]]; [apply C3 in H; lia|auto].
    + apply Hout in H as [H|[? _]]; [eauto|congruence].
  - cbn [sys_tasks bump_next sys_outcomes sys_calls]. intros id u H. rewrite Hcalls in H.
    rewrite install_tasks, Ht. destruct (keqb_spec id (sys_next s)) as [Hk|Hk].
    + destruct nx; [discriminate|]. intros _. eexists. apply Hout. eauto.
    + intros E. apply Hold in H as [H|[? _]]; [|congruence]. destruct (C6 _ _ H E) as (o & H').
      exists o. apply Hout. auto.
  - cbn [sys_tasks bump_next sys_outcomes sys_calls]. intros id u fl H. rewrite Hcalls in H.
    rewrite install_tasks, Ht. destruct (keqb_spec id (sys_next s)) as [Hk|Hk].
    + destruct nx as [t|]; [|discriminate]. intros E. injection E as <-. cbn.
      apply Hold in H as [H|[_ E]]; [apply C1 in H; lia|]. rewrite (Hp _ eq_refl), E. auto.
    + apply Hold in H as [H|[? _]]; [|congruence]. eauto.
  - cbn [sys_tasks bump_next sys_outcomes sys_calls]. intros id fl p. rewrite Hcalls.
    rewrite install_tasks, Ht. destruct (keqb_spec id (sys_next s)) as [Hk|Hk].
    + destruct nx as [t|]; [|discriminate]. intros E. injection E as <-. cbn.
      rewrite (Hp _ eq_refl). destruct ou as [u|]; [|discriminate].
      intros E. exists u. split; auto. apply Hold. auto.
    + intros E Hf. destruct (C8 _ _ _ E Hf) as (u & Hu & Hw). exists u. split; auto. apply Hold. auto.
Qed.

Lemma calls_move s s0 id t r nx :
  ids_ok s -> calls_ok s -> bget id (sys_tasks s) = Some {| fl_task := t; fl_reply := r |} ->
  sys_tasks s0 = sys_tasks s -> sys_next s0 = sys_next s ->
  sys_outcomes s0 = sys_outcomes s -> sys_calls s0 = sys_calls s ->
  (forall t', nx = Await t' -> task_principal t' = task_principal t) ->
  calls_ok (install id nx s0).
Proof.
  intros Hi [C1 C2 C3 C4 C5 C6 C7 C8] Hg Ht Hn Ho Hc Hp.
  assert (Hcalls : sys_calls (install id nx s0) = sys_calls s) by (destruct nx; cbn; auto).
  assert (Hnext : sys_next (install id nx s0) = sys_next s) by (destruct nx; cbn; auto).
  assert (Hlt : id < sys_next s) by (eapply ids_lt; eauto).
  assert (Hno : forall o, ~ In (id, o) (sys_outcomes s)).
  { intros o H. apply C5 in H. congruence. }
  assert (Hout : forall i o, In (i, o) (sys_outcomes (install id nx s0)) <->
    In (i, o) (sys_outcomes s) \/ (i = id /\ nx = Finish o)).
  { intros i o. destruct nx as [t'|o']; cbn; rewrite Ho.
    - split; [auto|]. intros [?|[_ ?]]; [auto|discriminate].
    - rewrite in_app_iff. cbn. split.
      + intros [?|[E|[]]]; [auto|]. injection E as <- <-. auto.
      + intros [?|[-> E]]; [auto|]. injection E as <-. auto. }
  constructor; rewrite ?Hcalls, ?Hnext; auto.
  - intros i o H. apply Hout in H as [H|[-> _]]; [apply C3 in H|]; lia.
  - destruct nx; cbn; rewrite Ho; auto. rewrite map_app. apply nodup_snoc; auto.
    apply fst_not_in. intros i a H ->. eapply Hno; eauto.
  - intros i o H. rewrite install_tasks, Ht. destruct (keqb_spec i id) as [Hk|Hk].
    + subst. apply Hout in H as [H|[_ ->]]; [destruct (Hno _ H)|auto].
    + apply Hout in H as [H|[? _]]; [eauto|congruence].
  - intros i u H. rewrite install_tasks, Ht. destruct (keqb_spec i id) as [Hk|Hk].
    + destruct nx; [discriminate|]. intros _. eexists. apply Hout. eauto.
    + intros E. destruct (C6 _ _ H E) as (o & H'). exists o. apply Hout. auto.
  - intros i u fl H. rewrite install_tasks, Ht. destruct (keqb_spec i id) as [Hk|Hk].
    + subst. destruct nx as [t'|]; [|discriminate]. intros E. injection E as <-. cbn.
      rewrite (Hp _ eq_refl). apply (C7 _ _ _ H Hg).
    + eauto.
  - intros i fl p. rewrite install_tasks, Ht. destruct (keqb_spec i id) as [Hk|Hk].
    + subst. destruct nx as [t'|]; [|discriminate]. intros E. injection E as <-. cbn.
      rewrite (Hp _ eq_refl). apply (C8 _ _ _ Hg).
    + eauto.
Qed.

Lemma calls_answered s s' id t r :
  calls_ok s -> bget id (sys_tasks s) = Some {| fl_task := t; fl_reply := None |} ->
  sys_tasks s' = sys_tasks (answered id t r s) -> sys_next s' = sys_next s ->
  sys_calls s' = sys_calls s -> sys_outcomes s' = sys_outcomes s -> calls_ok s'.
Proof.
  intros [C1 C2 C3 C4 C5 C6 C7 C8] Hg Ht Hn Hc Ho.
  assert (He : forall i, option_map fl_task (bget i (sys_tasks s')) = option_map fl_task (bget i (sys_tasks s))).
  { intros i. rewrite Ht. cbn. rewrite bget_insert. destruct (keqb_spec i id) as [Hk|Hk]; auto.
    subst. rewrite Hg. reflexivity. }
  assert (Hx : forall i fl, bget i (sys_tasks s') = Some fl ->
    exists fl', bget i (sys_tasks s) = Some fl' /\ fl_task fl' = fl_task fl).
  { intros i fl E. specialize (He i). rewrite E in He. cbn in He.
    destruct (bget i (sys_tasks s)) as [f|]; [|discriminate]. injection He as He. eauto. }
  assert (Hz : forall i, bget i (sys_tasks s') = None <-> bget i (sys_tasks s) = None).
  { intros i. specialize (He i). destruct (bget i (sys_tasks s)), (bget i (sys_tasks s')); cbn in He;
      try discriminate; split; auto; discriminate. }
  constructor; rewrite ?Hn, ?Hc, ?Ho; auto.
  - intros i o H. apply Hz. eauto.
  - intros i u H E. apply Hz in E. eauto.
  - intros i u fl H E. apply Hx in E as (fl' & E & <-). eauto.
  - intros i fl p E Hf. apply Hx in E as (fl' & E & E'). rewrite <- E' in Hf. eauto.
Qed.

Lemma timer_principal now k c c' t : timer_start now k c = Done (c', Await t) -> task_principal t = None.
Proof. intros H. apply timer_after in H. cbn in H. destruct t; auto; destruct H. Qed.

Lemma calls_reach env s : reach self keccak env s -> calls_ok s.
Proof.
  apply (reach_inv2 self keccak env ids_ok); [apply ids_reach| |].
  - intros now a s0 H. apply sys_init_inv in H as (st & _ & _ & H3 & _ & _ & _ & H4 & H5 & _).
    constructor; rewrite ?H3, ?H4, ?H5; cbn; try tauto; try constructor; discriminate.
  - intros s0 l s' Hi _ Hc _ Ht. destruct Ht; auto.
    + eapply calls_start with (ou := None); eauto; try reflexivity.
      intros t ->. eapply timer_principal; eauto.
    + eapply calls_start with (ou := Some u); eauto; try reflexivity.
      intros t ->. apply (call_taken keccak) in H0 as (_ & _ & H0). destruct (H0 _ eq_refl) as (p & -> & Hp).
      exact Hp.
    + pose proof (calls_start s0 (with_core (sys_core s0) now s0) (Finish OutTrap) None Hi Hc eq_refl eq_refl
        eq_refl eq_refl) as K. 
      assert (K1 : forall t, Finish OutTrap = Await t -> task_principal t = None) by discriminate.
      specialize (K K1). destruct K as [D1 D2 D3 D4 D5 D6 D7 D8]. cbn in *.
      rewrite (bremove_notin _ _ (fresh_id self keccak _ Hi)) in *. constructor; auto.
    + pose proof (calls_start s0 (with_core (sys_core s0) now (with_call (sys_next s0) u s0)) (Finish OutTrap)
        (Some u) Hi Hc eq_refl eq_refl eq_refl eq_refl) as K.
      assert (K1 : forall t, Finish OutTrap = Await t -> task_principal t = withdrawing u) by discriminate.
      specialize (K K1). destruct K as [D1 D2 D3 D4 D5 D6 D7 D8]. cbn in *.
      rewrite (bremove_notin _ _ (fresh_id self keccak _ Hi)) in *. constructor; auto.
    + eapply calls_answered; eauto; reflexivity.
    + eapply calls_answered; eauto; reflexivity.
    + eapply calls_move; eauto; try reflexivity. intros t' ->. eapply next_principal; eauto.
    + eapply calls_move; eauto; try reflexivity. discriminate.
    + destruct Hc; constructor; auto.
Qed.

Section At.
Variable env : Sys -> Label -> Prop.
Variable s : Sys.
Hypothesis Hr : reach self keccak env s.

Lemma in_flight_iff id p :
  in_flight s id p <-> holder by_principal (fun i => bget i (sys_tasks s)) p id.
Proof.
  pose proof (calls_reach _ _ Hr) as [C1 C2 C3 C4 C5 C6 C7 C8]. unfold in_flight, holder, by_principal. split.
  - intros ((u & Hu & Hw) & Hn). destruct (bget id (sys_tasks s)) as [fl|] eqn:E.
    + exists fl. split; auto. rewrite (C7 _ _ _ Hu E). auto.
    + destruct (C6 _ _ Hu E) as (o & Ho). destruct (Hn _ Ho).
  - intros (fl & E & Hp). split; [eauto|]. intros o Ho. apply C5 in Ho. congruence.
Qed.

Lemma one_call_per_user i j p : in_flight s i p -> in_flight s j p -> i = j.
Proof. rewrite !in_flight_iff. apply (go_principal _ (guards_reach _ _ Hr)). Qed.

Lemma principal_guard p :
  bmem p (pending_withdrawal_principals (sys_state s)) = true <-> exists id, in_flight s id p.
Proof.
  rewrite (gd_held _ _ _ (go_principal _ (guards_reach _ _ Hr)) p). split; intros (id & H); exists id;
    apply in_flight_iff; auto.
Qed.

Lemma in_flight_principals l :
  NoDup l -> (forall id, In id l -> exists p, in_flight s id p) ->
  (List.length l <= List.length (pending_withdrawal_principals (sys_state s)))%nat.
Proof.
  intros Hn Hl.
  assert (Hps : exists ps, List.length ps = List.length l /\ NoDup ps /\
    (forall p, In p ps -> exists id, In id l /\ in_flight s id p)).
  { induction l as [|i l IH].
    - exists []. repeat split; [constructor|]. intros p [].
    - inversion Hn; subst. destruct IH as (ps & H3 & H4 & H5); auto. { intros; apply Hl; right; auto. }
      destruct (Hl i (or_introl eq_refl)) as (p & Hp). exists (p :: ps). split; [cbn; auto|]. split.
      + constructor; auto. intros Hin. apply H5 in Hin as (id & Hid & Hf).
        rewrite (one_call_per_user _ _ _ Hp Hf) in H1. contradiction.
      + intros q [<-|Hq]; [exists i; split; [left|]; auto|]. apply H5 in Hq as (id & ? & ?).
        exists id. split; [right|]; auto. }
  destruct Hps as (ps & <- & H1 & H2).
  rewrite <- (map_length fst (pending_withdrawal_principals (sys_state s))).
  apply NoDup_incl_length; auto. intros p Hp. apply H2 in Hp as (id & _ & Hf).
  apply bmem_In. apply principal_guard. eauto.
Qed.

Lemma at_most_100 l :
  NoDup l -> (forall id, In id l -> exists p, in_flight s id p) -> (List.length l <= 100)%nat.
Proof.
  intros H1 H2. etransitivity; [apply in_flight_principals; eauto|].
  apply (go_length _ (guards_reach _ _ Hr)).
Qed.

Lemma no_guard_left :
  (forall id p, ~ in_flight s id p) -> pending_withdrawal_principals (sys_state s) = [].
Proof.
  intros H. destruct (pending_withdrawal_principals (sys_state s)) as [|[p x] l] eqn:E; auto.
  exfalso. assert (Hp : bmem p (pending_withdrawal_principals (sys_state s)) = true).
  { rewrite E. unfold bmem. cbn. rewrite keqb_refl. reflexivity. }
  apply principal_guard in Hp as (id & Hp). eapply H; eauto.
Qed.

Lemma call_refused u p now :
  withdrawing u = Some p -> sys_clock s <= now ->
  (exists id, in_flight s id p) \/
  (exists l, NoDup l /\ (100 <= List.length l)%nat /\ forall id, In id l -> exists q, in_flight s id q) \/
  (100 <= List.length (pending (withdrawals (sys_state s))))%nat ->
  refused s (step self keccak s (LCall u now)).
Proof.
  intros Hw Hnow Hc.
  assert (Hg : exists e, guard_new p (fst (sys_core s)) = RErr e).
  { unfold guard_new, MAX_PENDING, MAX_CONCURRENT. fold (sys_state s).
    destruct (N.leb_spec 100 (N.of_nat (List.length (pending (withdrawals (sys_state s)))))); [eauto|].
    destruct (bmem p (pending_withdrawal_principals (sys_state s))) eqn:E; [eauto|].
    destruct (N.leb_spec 100 (N.of_nat (List.length (pending_withdrawal_principals (sys_state s))))); [eauto|].
    exfalso. destruct Hc as [Hc|[(l & Hl1 & Hl2 & Hl3)|Hc]].
    - apply principal_guard in Hc. congruence.
    - pose proof (in_flight_principals l Hl1 Hl3). lia.
    - lia. }
  destruct Hg as (e & Hg).
  assert (Hp : exists w, call_start now u (sys_core s) = Panic w).
  { destruct u; cbn in Hw; try discriminate; injection Hw as ->; cbn;
      unfold withdraw_native_start, withdraw_erc20_start; rewrite Hg;
      destruct (rassert _ _); cbn; eauto. }
  destruct Hp as (w & Hp). unfold step.
  destruct (N.ltb_spec now (sys_clock s)); [lia|]. unfold start_task. cbn [sys_core with_call].
  rewrite Hp. repeat split; cbn; auto. rewrite in_app_iff. right. left. reflexivity.
Qed.

Lemma not_trapped now u c nx :
  sys_clock s <= now -> call_start now u (sys_core s) = Done (c, nx) -> nx <> Finish OutTrap ->
  ~ In (sys_next s, OutTrap) (sys_outcomes (step self keccak s (LCall u now))).
Proof.
  intros Hnow Hc Hnx. pose proof (calls_reach _ _ Hr) as HC. unfold step.
  destruct (N.ltb_spec now (sys_clock s)); [lia|]. unfold start_task. cbn [sys_core with_call]. rewrite Hc.
  destruct nx as [t|o]; cbn; intros Hi.
  - apply (co_out_lt _ HC) in Hi. lia.
  - apply in_app_iff in Hi as [Hi|[E|[]]].
    + apply (co_out_lt _ HC) in Hi. lia.
    + injection E as ->. congruence.
Qed.

Lemma guard_free p :
  (forall id, ~ in_flight s id p) ->
  (List.length (pending (withdrawals (sys_state s))) < 100)%nat ->
  (exists l, (List.length l < 100)%nat /\ forall id q, in_flight s id q -> In id l) ->
  guard_new p (sys_state s) =
    ROk (set_pending_withdrawal_principals (binsert p tt (pending_withdrawal_principals (sys_state s)))
           (sys_state s)).
Proof.
  intros H1 H2 (l & H3 & H4). unfold guard_new, MAX_PENDING, MAX_CONCURRENT.
  destruct (N.leb_spec 100 (N.of_nat (List.length (pending (withdrawals (sys_state s)))))); [lia|].
  destruct (bmem p (pending_withdrawal_principals (sys_state s))) eqn:E.
  { apply principal_guard in E as (id & E). destruct (H1 _ E). }
  destruct (N.leb_spec 100 (N.of_nat (List.length (pending_withdrawal_principals (sys_state s))))); auto.
  exfalso. pose proof (go_sorted _ (guards_reach _ _ Hr)) as Hs.
  assert (Hx : forall ps : list Principal, NoDup ps -> (forall q, In q ps -> exists id, in_flight s id q) ->
    exists ids, List.length ids = List.length ps /\ NoDup ids /\
      forall id, In id ids -> exists q, In q ps /\ in_flight s id q).
  { induction ps as [|q ps IH]; intros Hn Hq.
    - exists []. repeat split; [constructor|]. intros ? [].
    - inversion Hn; subst. destruct IH as (ids & K1 & K2 & K3); auto. { intros; apply Hq; right; auto. }
      destruct (Hq q (or_introl eq_refl)) as (id & Hid). exists (id :: ids). split; [cbn; auto|]. split.
      + constructor; auto. intros Hi. apply K3 in Hi as (q' & Hq' & Hf).
        apply in_flight_iff in Hid, Hf. destruct Hid as (f & F1 & F2), Hf as (g & G1 & G2).
        rewrite F1 in G1. injection G1 as <-. unfold by_principal in *. rewrite F2 in G2.
        injection G2 as <-. contradiction.
      + intros i [<-|Hi]; [exists q; split; [left|]; auto|]. apply K3 in Hi as (q' & ? & ?).
        exists q'. split; [right|]; auto. }
  destruct (Hx (bkeys (pending_withdrawal_principals (sys_state s)))) as (ids & K1 & K2 & K3).
  - apply bsorted_NoDup; auto.
  - intros q Hq. apply principal_guard. apply bmem_In. auto.
  - unfold bkeys in K1. rewrite map_length in K1.
    assert (Hle : (List.length ids <= List.length l)%nat).
    { apply NoDup_incl_length; auto. intros i Hi. apply K3 in Hi as (q & _ & Hf). eauto. }
    lia.
Qed.

Lemma call_accepted u p now :
  withdrawing u = Some p -> sys_clock s <= now ->
  (forall id, ~ in_flight s id p) ->
  (List.length (pending (withdrawals (sys_state s))) < 100)%nat ->
  (exists l, (List.length l < 100)%nat /\ forall id q, in_flight s id q -> In id l) ->
  p <> ANONYMOUS ->
  (forall f, withdrawal_native_fee (sys_state s) = Some f -> native_ledger_transfer_fee (sys_state s) <= f) ->
  match u with
  | CallWithdrawNative _ amount _ => amount <= U256_MAX
  | CallWithdrawErc20 _ amount ledger _ => amount <= U256_MAX /\
      exists token, find_erc20_token_by_ledger_id ledger (sys_state s) = Some token
  | _ => True
  end ->
  ~ In (sys_next s, OutTrap) (sys_outcomes (step self keccak s (LCall u now))).
Proof.
  intros Hw Hnow H1 H2 H3 Ha Hfee Hu.
  pose proof (guard_free p H1 H2 H3) as Hg.
  assert (Hb : bytes_eqb p ANONYMOUS = false).
  { destruct (bytes_eqb p ANONYMOUS) eqn:E; auto. apply bytes_eqb_eq in E. contradiction. }
  assert (Hsub : forall f, withdrawal_native_fee (sys_state s) = Some f ->
    exists x, checked_sub f (native_ledger_transfer_fee (sys_state s)) = Some x).
  { intros f Hf. specialize (Hfee _ Hf). unfold checked_sub.
    destruct (N.leb_spec (native_ledger_transfer_fee (sys_state s)) f); [eauto|lia]. }
  assert (Hx : exists c nx, call_start now u (sys_core s) = Done (c, nx) /\ nx <> Finish OutTrap).
  { destruct u; cbn in Hw; try discriminate; injection Hw as ->; cbn.
    - unfold withdraw_native_start. rewrite Hb. cbn. fold (sys_state s). rewrite Hg.
      destruct (validate_address_as_destination recipient); [|unfold end_call; do 2 eexists; split; [reflexivity|discriminate]].
      rewrite amount_of_nat_spec. destruct (N.leb_spec amount U256_MAX); [|lia]. cbn.
      destruct (amount <? _); [unfold end_call; do 2 eexists; split; [reflexivity|discriminate]|].
      destruct (withdrawal_native_fee (sys_state s)) as [f|] eqn:Ef.
      + destruct (Hsub _ eq_refl) as (x & ->). cbn. do 2 eexists; split; [reflexivity|discriminate].
      + do 2 eexists; split; [reflexivity|discriminate].
    - destruct Hu as (Hu & token & Ht).
      unfold withdraw_erc20_start. rewrite Hb. cbn. fold (sys_state s). rewrite Hg.
      destruct (validate_address_as_destination recipient); [|unfold end_call; do 2 eexists; split; [reflexivity|discriminate]].
      rewrite amount_of_nat_spec. destruct (N.leb_spec amount U256_MAX); [|lia]. cbn.
      set (s1 := set_pending_withdrawal_principals _ (sys_state s)).
      change (find_erc20_token_by_ledger_id ledger s1) with (find_erc20_token_by_ledger_id ledger (sys_state s)).
      rewrite Ht. destruct (refresh_start now s1) as [g| |s2].
      + unfold erc20_estimated. cbn.
        destruct (withdrawal_native_fee (sys_state s)) as [f|] eqn:Ef.
        * destruct (Hsub _ eq_refl) as (x & ->). cbn. do 2 eexists; split; [reflexivity|discriminate].
        * do 2 eexists; split; [reflexivity|discriminate].
      + do 2 eexists; split; [reflexivity|discriminate].
      + do 2 eexists; split; [reflexivity|discriminate]. }
  destruct Hx as (c & nx & Hc & Hnx). eapply not_trapped; eauto.
Qed.

(** ** Timers *)

Definition guard_of (a : Activity) : TaskType :=
  match a with
  | Minting => TaskMint | Scraping => TaskScrapLogs | Reimbursing => TaskReimbursement
  | Retrieving => TaskRetrieveEth | Refreshing => TaskRefreshGasFeeEstimate
  end.

Lemma doing_iff t a : doing t a <-> by_timer t (guard_of a).
Proof.
  unfold by_timer. destruct a, t; cbn; split; intros H;
    repeat match goal with
    | H : _ \/ _ |- _ => destruct H
    | H : exists _, _ |- _ => destruct H
    | H : False |- _ => destruct H
    | H : _ = _ |- _ => discriminate
    end; eauto 10.
Qed.

Lemma running_iff id a :
  running_activity s id a <-> holder by_timer (fun i => bget i (sys_tasks s)) (guard_of a) id.
Proof.
  unfold running_activity, holder. split.
  - intros (t & r & E & H). exists {| fl_task := t; fl_reply := r |}. split; auto. apply doing_iff; auto.
  - intros ([t r] & E & H). exists t, r. split; auto. apply doing_iff; auto.
Qed.

Lemma one_at_a_time i j a : running_activity s i a -> running_activity s j a -> i = j.
Proof. rewrite !running_iff. apply (go_timer _ (guards_reach _ _ Hr)). Qed.

Lemma timer_guard a :
  bmem (guard_of a) (active_tasks (sys_state s)) = true <-> exists id, running_activity s id a.
Proof.
  rewrite (gd_held _ _ _ (go_timer _ (guards_reach _ _ Hr)) (guard_of a)). split; intros (id & H); exists id;
    apply running_iff; auto.
Qed.

Lemma timer_guard_free a :
  (forall id, ~ running_activity s id a) ->
  timer_guard_new (guard_of a) (sys_state s) =
    Some (set_active_tasks (binsert (guard_of a) tt (active_tasks (sys_state s))) (sys_state s)).
Proof.
  intros H. unfold timer_guard_new.
  destruct (bmem (guard_of a) (active_tasks (sys_state s))) eqn:E; auto.
  apply timer_guard in E as (id & E). destruct (H _ E).
Qed.

Lemma second_start k now id :
  running_activity s id (starts k) -> sys_clock s <= now ->
  let s' := step self keccak s (LTimer k now) in
  sys_core s' = sys_core s /\ (forall i, bget i (sys_tasks s') = bget i (sys_tasks s)) /\ sys_ops s' = sys_ops s.
Proof.
  intros Hrun Hnow. cbn.
  assert (Hb : bmem (guard_of (starts k)) (active_tasks (sys_state s)) = true) by (apply timer_guard; eauto).
  assert (Hs : timer_start now k (sys_core s) = Done (sys_core s, Finish OutTimer)).
  { destruct k; cbn in *;
      unfold mint_start, scrape_start, retrieve_start, reimburse_start, refresh_task_start, refresh_start,
        timer_guard_new; unfold sys_state in Hb; rewrite Hb; auto.
    destruct (last_transaction_price_estimate (fst (sys_core s))) as [[ts g]|]; [destruct (now <? _)|]; auto. }
  rewrite Hs. destruct (N.ltb_spec now (sys_clock s)); [lia|]. cbn. repeat split.
  intros i. rewrite bget_remove. destruct (keqb_spec i (sys_next s)) as [Hk|Hk]; auto.
  subst. symmetry. apply (fresh_id self keccak), (ids_reach self keccak env). auto.
Qed.

Lemma started k now c t :
  sys_clock s <= now -> timer_start now k (sys_core s) = Done (c, Await t) ->
  bget (sys_next s) (sys_tasks (step self keccak s (LTimer k now))) = Some {| fl_task := t; fl_reply := None |}.
Proof.
  intros Hnow H. cbn. rewrite H. destruct (N.ltb_spec now (sys_clock s)); [lia|].
  cbn. apply bget_insert_eq.
Qed.

Lemma restart_scrape now :
  (forall id, ~ running_activity s id Scraping) -> sys_clock s <= now ->
  running_activity (step self keccak s (LTimer TimerScrape now)) (sys_next s) Scraping.
Proof.
  intros H Hnow. exists (TScrapeBlock 0), None. split; [eapply started; auto|cbn; eauto].
  cbn. unfold scrape_start. fold (sys_state s). pose proof (timer_guard_free _ H) as Hg. cbn in Hg. rewrite Hg.
  reflexivity.
Qed.
Lemma restart_mint now e rest :
  (forall id, ~ running_activity s id Minting) -> sys_clock s <= now ->
  events_to_mint_list (sys_state s) = e :: rest ->
  match e with
  | DepNative _ => forall f, deposit_native_fee (sys_state s) = Some f -> f <= dep_value e
  | DepErc20 x => exists y, dmkm_get_entry_alt (ee_erc20_contract_address x) (erc20_tokens (sys_state s)) = Some y
  end ->
  running_activity (step self keccak s (LTimer TimerMint now)) (sys_next s) Minting.
Proof.
  intros H Hnow He Hok. pose proof (timer_guard_free _ H) as Hg. cbn in Hg.
  assert (Hs : exists c j, timer_start now TimerMint (sys_core s) = Done (c, Await (TMint j))).
  { cbn. unfold mint_start. fold (sys_state s). rewrite Hg.
    set (s1 := set_active_tasks _ (sys_state s)).
    change (events_to_mint_list s1) with (events_to_mint_list (sys_state s)). rewrite He.
    unfold mint_next. destruct e as [e|e].
    - cbn. destruct (deposit_native_fee (sys_state s)) as [f|] eqn:Ef.
      + cbn. specialize (Hok _ eq_refl). cbn in Hok. destruct (N.leb_spec f (ne_value e)); [|lia].
        cbn. eauto.
      + cbn. eauto.
    - destruct Hok as ((l & sy) & Hy).
      change (erc20_tokens (fst (s1, snd (sys_core s)))) with (erc20_tokens (sys_state s)).
      rewrite Hy. cbn. eauto. }
  destruct Hs as (c & j & Hs). do 2 eexists. split; [eapply started; eauto|cbn; eauto].
Qed.
Lemma restart_reimburse now i r rest :
  (forall id, ~ running_activity s id Reimbursing) -> sys_clock s <= now ->
  reimb_requests (withdrawals (sys_state s)) = (i, r) :: rest ->
  running_activity (step self keccak s (LTimer TimerReimburse now)) (sys_next s) Reimbursing.
Proof.
  intros H Hnow He. pose proof (timer_guard_free _ H) as Hg. cbn in Hg.
  exists (TReimburse (reimburse_ledger (sys_state s) i) i r rest), None.
  split; [eapply started; auto|cbn; eauto 10].
  cbn. unfold reimburse_start. fold (sys_state s). rewrite Hg.
  set (s1 := set_active_tasks _ (sys_state s)).
  change (reimb_requests (withdrawals s1)) with (reimb_requests (withdrawals (sys_state s))). rewrite He.
  destruct i; reflexivity.
Qed.
Lemma age_eq ts : N.min (ts + 30 * 10 ^ 9) (2 ^ 64 - 1) = u64_saturating_add ts MAX_AGE_NS.
Proof.
  unfold u64_saturating_add.
  replace (30 * 10 ^ 9) with MAX_AGE_NS by (vm_compute; reflexivity).
  replace (2 ^ 64 - 1) with U64_MAX by (vm_compute; reflexivity). reflexivity.
Qed.
Lemma restart_retrieve now :
  (forall id, ~ running_activity s id Retrieving) -> sys_clock s <= now ->
  has_pending_requests (withdrawals (sys_state s)) = true ->
  fresh_estimate now (sys_state s) \/ (forall id, ~ running_activity s id Refreshing) ->
  running_activity (step self keccak s (LTimer TimerRetrieve now)) (sys_next s) Retrieving.
Proof.
  intros H Hnow He Hf. pose proof (timer_guard_free _ H) as Hg. cbn in Hg.
  assert (Hs : exists c t, timer_start now TimerRetrieve (sys_core s) = Done (c, Await t) /\ doing t Retrieving).
  { cbn [timer_start]. unfold retrieve_start. fold (sys_state s). rewrite Hg.
    set (s1 := set_active_tasks _ (sys_state s)).
    change (has_pending_requests (withdrawals s1)) with (has_pending_requests (withdrawals (sys_state s))).
    rewrite He. cbn [negb]. unfold refresh_start.
    change (last_transaction_price_estimate s1) with (last_transaction_price_estimate (sys_state s)).
    destruct Hf as [(ts & g & -> & Hlt)|Hf].
    - rewrite age_eq in Hlt.
      destruct (N.ltb_spec now (u64_saturating_add ts MAX_AGE_NS)); [|lia].
      do 2 eexists. split; [reflexivity|cbn; eauto].
    - pose proof (timer_guard_free _ Hf) as Hg2. unfold timer_guard_new in *. cbn in Hg2.
      destruct (bmem TaskRefreshGasFeeEstimate (active_tasks (sys_state s))) eqn:Eb; [discriminate|].
      assert (Hb1 : bmem TaskRefreshGasFeeEstimate (active_tasks s1) = false).
      { cbn. rewrite bmem_insert, Eb. reflexivity. }
      rewrite Hb1.
      destruct (last_transaction_price_estimate (sys_state s)) as [[ts g]|]; [destruct (now <? _)|];
        do 2 eexists; (split; [reflexivity|cbn; eauto]). }
  destruct Hs as (c & t & Hs & Hd). do 2 eexists. split; [eapply started; eauto|auto].
Qed.
Lemma restart_refresh now :
  (forall id, ~ running_activity s id Refreshing) -> sys_clock s <= now ->
  ~ fresh_estimate now (sys_state s) ->
  running_activity (step self keccak s (LTimer TimerRefresh now)) (sys_next s) Refreshing.
Proof.
  intros H Hnow He. pose proof (timer_guard_free _ H) as Hg. cbn in Hg.
  exists TRefresh, None. split; [eapply started; auto|cbn; eauto 10].
  cbn. unfold refresh_task_start, refresh_start. fold (sys_state s). rewrite Hg.
  destruct (last_transaction_price_estimate (sys_state s)) as [[ts g]|] eqn:E; [|reflexivity].
  destruct (N.ltb_spec now (u64_saturating_add ts MAX_AGE_NS)); [|reflexivity].
  exfalso. apply He. exists ts, g. rewrite age_eq. auto.
Qed.

End At.
End Reach.
