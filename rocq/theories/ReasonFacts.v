(** * The reasons given to callers: proofs *)

From Verif Require Import Base BMap MultiKeyMap Bytes Types Amount Tx CallData Network Hex
  Transactions State Audit Ranges Rlp Parser Memo Driver Sys SysSpec Segments Tasks SysFacts GuardSpec GuardFacts
  CallFacts UpgradeSpec InfoFacts ReasonSpec.

Lemma burn_reason r e : burn_result r = Done (RErr e) -> reason r = Some e.
Proof. destruct r as [b|[]|]; cbn; intros H; inv_res; try reflexivity; discriminate. Qed.
Lemma fee_reason r e : fee_transfer_result r = Done (RErr e) -> reason r = Some e.
Proof. destruct r as [b|[]|]; cbn; intros H; inv_res; try reflexivity; discriminate. Qed.

Section Reason.
Variable self : Principal.
Variable keccak : list N -> Hash.
Variable s0 : Sys.
Variable now0 : N.
Variable a0 : InitArg.
Hypothesis Hinit : sys_init now0 a0 = Done s0.

Notation told := (told self keccak s0).
Notation run := (run self keccak s0).
Notation explained := (explained self keccak s0).

Lemma run_snoc ls l : run (ls ++ [l]) = step self keccak (run ls) l.
Proof. unfold Sys.run. rewrite fold_left_app. reflexivity. Qed.
Lemma run_reach ls : reach self keccak any_env (run ls).
Proof.
  induction ls as [|l ls IH] using rev_ind.
  - eapply reach_init. exact Hinit.
  - rewrite run_snoc. apply reach_step; [exact IH|exact Logic.I].
Qed.

Lemma told_more ls l id c r : told ls id c r -> told (ls ++ [l]) id c r.
Proof.
  intros (pre & post & t & -> & H). exists pre, (post ++ [l]), t. split; [|exact H].
  rewrite <- app_assoc. reflexivity.
Qed.

Lemma calls_more s l : incl (sys_calls s) (sys_calls (step self keccak s l)).
Proof.
  intros x Hx. pose proof (step_trans self keccak s l) as H.
  destruct H as [|k now c nx Hc H|u now c nx Hc H|k now Hc|u now Hc|id t c b Hget Hcall Hallow|id t r Hget Hfit Hno|id now t r c nx Hc Hget H|id trap now t r c Hc Hget Hp H|a now c Hc Ht H];
    try exact Hx; cbn; try (destruct nx; cbn); auto; rewrite ?in_app_iff; auto.
Qed.

Lemma refused_more ls l id to f e :
  refused_by_ledger self keccak s0 ls id to f e -> refused_by_ledger self keccak s0 (ls ++ [l]) id to f e.
Proof.
  intros (u & p & lg & a & m & r & H1 & H2 & H3 & H4). exists u, p, lg, a, m, r.
  split; [rewrite run_snoc; apply calls_more; exact H1|]. split; [exact H2|].
  split; [apply told_more; exact H3|exact H4].
Qed.
Lemma explained_more ls l id o : explained ls id o -> explained (ls ++ [l]) id o.
Proof. unfold ReasonSpec.explained. destruct o as [|[|[]]|[|[]]| | |]; auto; apply refused_more. Qed.

(** What a refund in progress will say *)
Definition blamed (ls : list Label) (id : N) (t : Task) : Prop :=
  match t with
  | TNativeRefund _ _ _ e => explained ls id (OutNative (RErr (WeBurn e)))
  | TErc20Refund _ _ _ o e =>
      explained ls id (OutErc20 (RErr (match o with Some i => EeErc20Ledger i e | None => EeNativeLedger e end)))
  | _ => True
  end.
Lemma blamed_more ls l id t : blamed ls id t -> blamed (ls ++ [l]) id t.
Proof. destruct t; auto; apply explained_more. Qed.

Record reasons (ls : list Label) : Prop := {
  re_reply : forall id t r c, bget id (sys_tasks (run ls)) = Some {| fl_task := t; fl_reply := Some (ReLedger r) |} ->
    task_call self t = Some c -> told ls id c r;
  re_refund : forall id fl, bget id (sys_tasks (run ls)) = Some fl -> blamed ls id (fl_task fl);
  re_out : forall id o, In (id, o) (sys_outcomes (run ls)) -> explained ls id o }.

(** A new refund or outcome *)
Lemma blame ls l id t r x to f e p lg a m :
  reasons ls -> bget id (sys_tasks (run ls)) = Some {| fl_task := t; fl_reply := Some r |} ->
  r = ReLedger x -> task_principal t = Some p ->
  task_call self t = Some (TransferFrom lg (default_account p) to a m) -> (f m : Prop) -> reason x = Some e ->
  refused_by_ledger self keccak s0 (ls ++ [l]) id to f e.
Proof.
  intros [R _ _] Hget -> Hp Hc Hf Hr. apply refused_more.
  destruct (co_flight _ (calls_reach self keccak any_env _ (run_reach ls)) _ _ _ Hget Hp) as (u & Hu & Hw).
  exists u, p, lg, a, m, x. split; [exact Hu|]. split; [exact Hw|]. split; [exact (R _ _ _ _ Hget Hc)|auto].
Qed.

Lemma deliver_next ls l id now t r c c' t' :
  reasons ls -> bget id (sys_tasks (run ls)) = Some {| fl_task := t; fl_reply := Some r |} ->
  resume keccak now t r c = Done (c', Await t') -> blamed (ls ++ [l]) id t'.
Proof.
  intros R Hget H. apply resume_after in H. cbn [after] in H. destruct t'; try exact Logic.I.
  - cbn in H. destruct H as (j & x & fee & -> & -> & _ & Hb & _). apply burn_reason in Hb.
    cbn. eapply blame; try exact Hget; try reflexivity; eauto.
  - cbn in H. destruct H as (j & x & fee & -> & Hb & _ & _ & _ & _ & H). apply burn_reason in Hb.
    destruct H as [(-> & -> & _)|(i & -> & -> & _)]; cbn; eapply blame; try exact Hget; try reflexivity; eauto.
Qed.

Lemma deliver_end ls l id now t r c c' o :
  reasons ls -> bget id (sys_tasks (run ls)) = Some {| fl_task := t; fl_reply := Some r |} ->
  resume keccak now t r c = Done (c', Finish o) -> explained (ls ++ [l]) id o.
Proof.
  intros R Hget H. apply resume_after in H. cbn [after] in H. destruct o as [|[q|e]|[q|e]| | |]; try exact Logic.I; cbn in H.
  - destruct H as [(j & x & y & -> & -> & Hb & -> & _)|[(j & x & y & -> & -> & Hb & _ & -> & _)|(p & lg & a & y & -> & -> & _)]].
    + apply fee_reason in Hb. cbn. eapply blame; try exact Hget; try reflexivity; eauto.
    + apply burn_reason in Hb. cbn. eapply blame; try exact Hget; try reflexivity; eauto.
    + apply explained_more. exact (re_refund _ R _ _ Hget).
  - destruct H as [(j & s & -> & -> & _)|[(j & x & y & -> & -> & Hb & -> & _)|[(j & x & y & -> & -> & Hb & _ & -> & _)|[(j & i & x & y & c1 & -> & -> & Hb & _ & -> & _)|(p & lg & a & i & y & -> & -> & _)]]]].
    + exact Logic.I.
    + apply fee_reason in Hb. cbn. eapply blame; try exact Hget; try reflexivity; eauto.
    + apply burn_reason in Hb. cbn. eapply blame; try exact Hget; try reflexivity; eauto.
    + apply burn_reason in Hb. cbn. eapply blame; try exact Hget; try reflexivity; eauto.
    + apply explained_more. exact (re_refund _ R _ _ Hget).
Qed.

Lemma timer_end now k c c' o : timer_start now k c = Done (c', Finish o) -> o = OutTimer.
Proof. intros H. apply timer_after in H. cbn in H. destruct o; try destruct H; auto. Qed.

Lemma call_await ls id now u c c' t : call_start now u c = Done (c', Await t) -> blamed ls id t.
Proof.
  intros H. apply (call_after keccak) in H. destruct t; try exact Logic.I; exfalso; destruct u; cbn in H.
  all: try (destruct H as (_ & s & _ & [(H & _)|(d & _ & _ & [(H & _)|(_ & _ & H)])]); try discriminate H;
    destruct (withdrawal_native_fee s); [destruct H as [_ H]|]; discriminate H).
  all: try (destruct H as (_ & s & _ & [(e & H & _)|(d & tk & _ & _ & _ & [(g & t' & _ & E & H)|(s' & _ & _ & H)])]);
    try discriminate H; injection E as <-; unfold estimated_next in H;
    destruct (withdrawal_native_fee s); [destruct H as [_ H]|]; discriminate H).
  all: repeat match goal with
       | H : exists _, _ |- _ => destruct H as [? H]
       | H : _ /\ _ |- _ => destruct H
       | H : _ \/ _ |- _ => destruct H
       end; try discriminate; try contradiction.
  all: match goal with H : Await _ = Await ?x, H' : estimated_next _ _ _ ?s ?x |- _ =>
    injection H as <-; unfold estimated_next in H'; destruct (withdrawal_native_fee s); [destruct H' as [_ H']|]; discriminate H' end.
Qed.

Lemma call_finish ls id now u c c' o : call_start now u c = Done (c', Finish o) -> explained ls id o.
Proof.
  destruct c as [s log]. intros H. destruct u.
  - apply (call_after keccak) in H. cbn in H.
    destruct H as (_ & s1 & _ & [(H & _)|(d & _ & _ & [(H & _)|(_ & _ & H)])]);
      [injection H as ->; exact Logic.I|injection H as ->; exact Logic.I|].
    destruct (withdrawal_native_fee s1); [destruct H as [_ H]|]; discriminate H.
  - cbn in H. unfold withdraw_erc20_start, end_call in H; cbn in H. inv_res.
    destruct (guard_new caller s) as [s1|]; [|discriminate].
    destruct (validate_address_as_destination recipient) as [d|e]; [|inv_res; exact Logic.I].
    inv_res. destruct (find_erc20_token_by_ledger_id ledger s1) as [tk|]; [|inv_res; exact Logic.I].
    destruct (refresh_start now s1) eqn:Er.
    all: try (apply (estimated_inv) in H as (_ & t' & H & _); discriminate H).
    all: inv_res; try exact Logic.I; try discriminate.
  - apply (call_after keccak) in H. cbn in H. destruct o; try exact Logic.I; exfalso;
    repeat match goal with
       | H : exists _, _ |- _ => destruct H as [? H]
       | H : _ /\ _ |- _ => destruct H
       | H : _ \/ _ |- _ => destruct H
       end; try discriminate; try contradiction.
  - apply (call_after keccak) in H. cbn in H. destruct o; try exact Logic.I; exfalso;
    repeat match goal with
       | H : exists _, _ |- _ => destruct H as [? H]
       | H : _ /\ _ |- _ => destruct H
       | H : _ \/ _ |- _ => destruct H
       end; try discriminate; try contradiction.
Qed.

Lemma timer_await ls id now k c c' t : timer_start now k c = Done (c', Await t) -> blamed ls id t.
Proof. intros H. apply timer_principal in H. destruct t; try exact Logic.I; discriminate H. Qed.

Lemma reasons_run ls : reasons ls.
Proof.
  induction ls as [|l ls IH] using rev_ind.
  - pose proof (sys_init_inv _ _ _ Hinit) as (st & _ & _ & Ht & _).
    constructor; cbn.
    + intros id t r c H. rewrite Ht in H. discriminate H.
    + intros id fl H. rewrite Ht in H. discriminate H.
    + intros id o H. unfold sys_init in Hinit. apply rbind_done in Hinit as (c & _ & E). injection E as <-. destruct H.
  - pose proof (step_trans self keccak (run ls) l) as H. rewrite <- run_snoc in H.
    assert (Hold : forall s', sys_tasks s' = sys_tasks (run ls) -> sys_outcomes s' = sys_outcomes (run ls) ->
      run (ls ++ [l]) = s' -> reasons (ls ++ [l])).
    { intros s' Ht Ho E. destruct IH as [R1 R2 R3]. constructor; rewrite E, ?Ht, ?Ho.
      - intros. apply told_more. eauto.
      - intros. apply blamed_more. eauto.
      - intros. apply explained_more. eauto. }
    assert (Hput : forall i nx, (match nx with Await t => blamed (ls ++ [l]) i t | Finish o => explained (ls ++ [l]) i o end) ->
      (forall j, bget j (sys_tasks (run (ls ++ [l]))) = if keqb j i then match nx with Await t => Some {| fl_task := t; fl_reply := None |} | Finish _ => None end
                 else bget j (sys_tasks (run ls))) ->
      (sys_outcomes (run (ls ++ [l])) = sys_outcomes (run ls) ++ match nx with Finish o => [(i, o)] | Await _ => [] end) ->
      reasons (ls ++ [l])).
    { intros i nx Hb Ht Ho. destruct IH as [R1 R2 R3]. constructor.
      - intros id t r c Hg Hc. rewrite Ht in Hg. destruct (keqb id i); [destruct nx; discriminate Hg|].
        apply told_more. eauto.
      - intros id fl Hg. rewrite Ht in Hg. destruct (keqb_spec id i) as [->|]; [destruct nx as [t|o]; [|discriminate Hg]|].
        + injection Hg as <-. exact Hb.
        + apply blamed_more. eauto.
      - intros id o Hin. rewrite Ho in Hin. apply in_app_iff in Hin as [Hin|Hin]; [apply explained_more; eauto|].
        destruct nx as [t|o']; [destruct Hin|]. destruct Hin as [Hin|[]]. injection Hin as <- <-. exact Hb. }
    assert (Hans : forall id t r s', bget id (sys_tasks (run ls)) = Some {| fl_task := t; fl_reply := None |} ->
      l = LAnswer id r -> run (ls ++ [l]) = s' -> sys_tasks s' = sys_tasks (answered id t r (run ls)) ->
      sys_outcomes s' = sys_outcomes (run ls) -> reasons (ls ++ [l])).
    { intros id t r s' Hget Hl E Ht Ho. destruct IH as [R1 R2 R3]. constructor; rewrite E, ?Ho, ?Ht; cbn.
      - intros i t1 r1 c Hg Hc. rewrite bget_insert in Hg. destruct (keqb_spec i id) as [->|]; [|apply told_more; eauto].
        injection Hg as <- ->. subst l. exists ls, [], t. auto.
      - intros i fl Hg. rewrite bget_insert in Hg. apply blamed_more. destruct (keqb_spec i id) as [->|]; [|eauto].
        injection Hg as <-. exact (R2 _ _ Hget).
      - intros. apply explained_more. eauto. }
    remember (run (ls ++ [l])) as s' eqn:Es.
    destruct H as [|k now c nx Hc H|u now c nx Hc H|k now Hc|u now Hc|id t c b Hget Hcall Hallow|id t r Hget Hfit Hno|id now t r c nx Hc Hget H|id trap now t r c Hc Hget Hp H|a now c Hc Ht H].
    + exact (Hold _ eq_refl eq_refl eq_refl).
    + apply (Hput (sys_next (run ls)) nx); [|intros j; cbn [bump_next sys_tasks]; rewrite install_tasks; reflexivity|cbn [bump_next sys_outcomes]; rewrite install_outcomes; reflexivity].
      destruct nx as [t|o]; [eapply timer_await; eauto|]. apply timer_end in H. subst o. exact Logic.I.
    + apply (Hput (sys_next (run ls)) nx); [|intros j; cbn [bump_next sys_tasks]; rewrite install_tasks; reflexivity|cbn [bump_next sys_outcomes]; rewrite install_outcomes; reflexivity].
      destruct nx as [t|o]; [eapply call_await; eauto|eapply call_finish; eauto].
    + pose proof (fresh_id self keccak _ (ids_reach self keccak any_env _ (run_reach ls))) as Hf.
      apply (Hput (sys_next (run ls)) (Finish OutTrap)); [exact Logic.I| |reflexivity].
      intros j. cbn. destruct (keqb_spec j (sys_next (run ls))) as [->|]; auto.
    + pose proof (fresh_id self keccak _ (ids_reach self keccak any_env _ (run_reach ls))) as Hf.
      apply (Hput (sys_next (run ls)) (Finish OutTrap)); [exact Logic.I| |reflexivity].
      intros j. cbn. destruct (keqb_spec j (sys_next (run ls))) as [->|]; auto.
    + exact (Hans id t _ _ Hget eq_refl eq_refl eq_refl eq_refl).
    + exact (Hans id t _ _ Hget eq_refl eq_refl eq_refl eq_refl).
    + apply (Hput id nx); [|intros j; rewrite install_tasks; reflexivity|rewrite install_outcomes; reflexivity].
      destruct nx as [t'|o]; [eapply deliver_next; eauto|eapply deliver_end; eauto].
    + apply (Hput id (Finish OutTrap)); [exact Logic.I|intros j; rewrite install_tasks; reflexivity|rewrite install_outcomes; reflexivity].
    + exact (Hold (with_core c now (run ls)) eq_refl eq_refl eq_refl).
Qed.

End Reason.

Section More.
Variable self : Principal.
Variable keccak : list N -> Hash.

Lemma never_too_small env s : reach self keccak env s ->
  forall id, ~ In (id, OutNative (RErr (WeBurn LeAmountTooLow))) (sys_outcomes s).
Proof.
  intros Hr. induction Hr as [now a s H|s l Hr IH Hl].
  - unfold sys_init in H. apply rbind_done in H as (c & _ & E). injection E as <-. intros id [].
  - pose proof (step_trans self keccak s l) as H. remember (step self keccak s l) as s' eqn:Es. clear Es.
    intros i. destruct H as [|k now c nx Hc H|u now c nx Hc H|k now Hc|u now Hc|id t c b Hget Hcall Hallow|id t r Hget Hfit Hno|id now t r c nx Hc Hget H|id trap now t r c Hc Hget Hp H|a now c Hc Ht H];
      cbn [bump_next sys_outcomes]; rewrite ?install_outcomes; cbn; rewrite ?in_app_iff; try exact (IH i).
    + destruct nx as [t|o]; [intros [Hi|[]]; exact (IH i Hi)|]. intros [Hi|[Hi|[]]]; [exact (IH i Hi)|].
      apply timer_end in H. subst o. discriminate Hi.
    + destruct nx as [t|o]; [intros [Hi|[]]; exact (IH i Hi)|]. intros [Hi|[Hi|[]]]; [exact (IH i Hi)|].
      injection Hi as _ ->. apply (call_after keccak) in H. destruct u; cbn in H.
      * destruct H as (_ & s1 & _ & [(H & _)|(d & _ & _ & [(H & _)|(_ & _ & H)])]); try discriminate H.
        destruct (withdrawal_native_fee s1); [destruct H as [_ H]|]; discriminate H.
      * destruct H as (_ & s1 & _ & [(e & H & _)|(d & tk & _ & _ & _ & [(g & t' & _ & H & _)|(s2 & _ & _ & H)])]);
          discriminate H.
      * destruct H as [H _]. discriminate H.
      * destruct H as (_ & n & tm & _ & _ & H). discriminate H.
    + intros [Hi|[Hi|[]]]; [exact (IH i Hi)|discriminate Hi].
    + intros [Hi|[Hi|[]]]; [exact (IH i Hi)|discriminate Hi].
    + destruct nx as [t'|o]; [intros [Hi|[]]; exact (IH i Hi)|]. intros [Hi|[Hi|[]]]; [exact (IH i Hi)|].
      injection Hi as _ ->. apply resume_after in H. cbn in H.
      destruct H as [(j & x & y & _ & _ & _ & H & _)|[(j & x & y & _ & _ & _ & _ & H & Hn & _)|(p & lg & a & y & _ & H & Hn & _)]];
        [discriminate H| |]; injection H as <-; apply Hn; reflexivity.
    + intros [Hi|[Hi|[]]]; [exact (IH i Hi)|discriminate Hi].
Qed.

Lemma low_fee env s p amount recipient now fee :
  reach self keccak env s -> sys_clock s <= now ->
  withdrawal_native_fee (sys_state s) = Some fee -> fee < native_ledger_transfer_fee (sys_state s) ->
  let s' := step self keccak s (LCall (CallWithdrawNative p amount recipient) now) in
  sys_core s' = sys_core s /\ sys_tasks s' = sys_tasks s /\ sys_ops s' = sys_ops s /\
  exists o, sys_outcomes s' = sys_outcomes s ++ [(sys_next s, o)] /\
    (o = OutTrap \/ o = OutNative (RErr WeInvalidDestination) \/
     o = OutNative (RErr (WeAmountTooLow (native_minimum_withdrawal_amount (sys_state s))))).
Proof.
  intros Hr Hnow Hfee Hlow. cbn zeta. cbn [step].
  destruct (N.ltb_spec now (sys_clock s)); [lia|]. unfold start_task.
  assert (Hid : bremove (sys_next s) (sys_tasks s) = sys_tasks s).
  { apply bremove_notin. apply (fresh_id self keccak). exact (ids_reach self keccak env s Hr). }
  cbn [sys_core with_call].
  destruct (call_start now (CallWithdrawNative p amount recipient) (sys_core s)) as [[c nx]|w] eqn:E.
  2: { cbn. repeat (split; [reflexivity|]). eauto. }
  apply (call_after keccak) in E. cbn in E. destruct E as (_ & s1 & Hg & E).
  assert (Hs : s1 = set_pending_withdrawal_principals
                (binsert p tt (pending_withdrawal_principals (sys_state s))) (sys_state s) /\
              bget p (pending_withdrawal_principals (sys_state s)) = None).
  { unfold guard_new in Hg. fold (sys_state s) in Hg. destruct (_ <=? _); [discriminate Hg|].
    destruct (bmem p _) eqn:Em; [discriminate Hg|]. destruct (_ <=? _); [discriminate Hg|]. injection Hg as <-.
    split; [reflexivity|]. unfold bmem in Em. destruct (bget p _); [discriminate Em|reflexivity]. }
  destruct Hs as [Hs Hp].
  assert (Hdrop : on_state (guard_drop p) (s1, snd (sys_core s)) = sys_core s).
  { subst s1. pose proof (go_sorted _ (guards_reach self keccak env s Hr)) as Hso.
    unfold on_state, guard_drop, set_pending_withdrawal_principals; cbn [fst snd pending_withdrawal_principals].
    rewrite bremove_insert by assumption. unfold sys_state in *. destruct (sys_core s) as [[] log]. reflexivity. }
  destruct E as [(-> & -> & _)|(d & _ & _ & [(-> & _ & ->)|(_ & _ & E)])].
  - rewrite Hdrop. cbn. rewrite Hid. repeat (split; [reflexivity|]). eauto.
  - rewrite Hdrop. cbn. rewrite Hid. repeat (split; [reflexivity|]). subst s1. eauto 6.
  - exfalso. subst s1. cbn in E. fold (sys_state s) in E. rewrite Hfee in E. destruct E as [E _]. lia.
Qed.

(** Without a withdrawal fee the whole amount is burnt, and this is at least the transfer fee *)
Definition burn_ok (s : State) (t : Task) : Prop :=
  match t with
  | TNativeFee j => exists f, withdrawal_native_fee s = Some f
  | TNativeBurn j => withdrawal_native_fee s = None -> native_ledger_transfer_fee s <= nj_amount j
  | _ => True
  end.
Lemma large_enough env s : reach self keccak env s ->
  forall id fl, bget id (sys_tasks s) = Some fl -> burn_ok (sys_state s) (fl_task fl).
Proof.
  intros Hr. induction Hr as [now a s H|s l Hr IH Hl].
  - pose proof (sys_init_inv _ _ _ H) as (st & _ & _ & Ht & _). intros id fl Hg. rewrite Ht in Hg. discriminate Hg.
  - intros i fl Hg.
    assert (Hkeep : forall x, burn_ok (sys_state s) x -> sys_tasks s <> [] -> burn_ok (sys_state (step self keccak s l)) x).
    { intros x Hx Hne. pose proof (settings_step self keccak s l Hne) as (E0 & E & _).
      destruct x; try exact Logic.I; cbn in *; rewrite E0; [exact Hx|]. rewrite E. exact Hx. }
    assert (Hold : forall fl', bget i (sys_tasks s) = Some fl' -> fl_task fl = fl_task fl' ->
      burn_ok (sys_state (step self keccak s l)) (fl_task fl)).
    { intros fl' Hg' ->. apply Hkeep; [exact (IH _ _ Hg')|]. intros E. rewrite E in Hg'. discriminate Hg'. }
    pose proof (valid_reach self keccak env _ (reach_step self keccak env s l Hr Hl)) as Hv. unfold valid_settings in Hv.
    pose proof (step_trans self keccak s l) as H. remember (step self keccak s l) as s' eqn:Es. clear Es.
    destruct H as [|k now c nx Hc H|u now c nx Hc H|k now Hc|u now Hc|id t c b Hget Hcall Hallow|id t r Hget Hfit Hno|id now t r c nx Hc Hget H|id trap now t r c Hc Hget Hp H|a now c Hc Ht H].
    + exact (Hold _ Hg eq_refl).
    + cbn [bump_next sys_tasks] in Hg. rewrite install_tasks in Hg. destruct (keqb i (sys_next s)); [|exact (Hold _ Hg eq_refl)].
      destruct nx as [t|o]; [|discriminate Hg]. injection Hg as <-. cbn [fl_task].
      apply timer_principal in H. destruct t; try exact Logic.I; discriminate H.
    + cbn [bump_next sys_tasks] in Hg. rewrite install_tasks in Hg. destruct (keqb i (sys_next s)); [|exact (Hold _ Hg eq_refl)].
      destruct nx as [t|o]; [|discriminate Hg]. injection Hg as <-. cbn [fl_task].
      apply (call_after keccak) in H. destruct u; cbn in H.
      * destruct H as (_ & s1 & H1 & [(H & _)|(d & _ & _ & [(H & _)|(Hm & Ec & H)])]); try discriminate H.
        subst c. cbn in *. destruct (withdrawal_native_fee s1) as [f|] eqn:Ef.
        -- destruct H as [_ H]. injection H as ->. exists f. exact Ef.
        -- injection H as ->. cbn. intros _. destruct Hv as (_ & _ & _ & _ & Hv). lia.
      * destruct H as (_ & s1 & _ & [(e & H & _)|(d & tk & _ & _ & _ & [(g & t' & _ & E & H)|(s2 & _ & _ & H)])]);
          try discriminate H.
        -- injection E as <-. unfold estimated_next in H. destruct (withdrawal_native_fee s1); [destruct H as [_ H]|]; subst t; exact Logic.I.
        -- injection H as ->. exact Logic.I.
      * destruct H as [H _]. discriminate H.
      * destruct H as (_ & n & tm & _ & _ & H). discriminate H.
    + exact (Hold _ Hg eq_refl).
    + exact (Hold _ Hg eq_refl).
    + cbn in Hg. rewrite bget_insert in Hg. destruct (keqb_spec i id) as [->|]; [|exact (Hold _ Hg eq_refl)].
      injection Hg as <-. exact (Hold _ Hget eq_refl).
    + cbn in Hg. rewrite bget_insert in Hg. destruct (keqb_spec i id) as [->|]; [|exact (Hold _ Hg eq_refl)].
      injection Hg as <-. exact (Hold _ Hget eq_refl).
    + rewrite install_tasks in Hg. destruct (keqb i id); [|exact (Hold _ Hg eq_refl)].
      destruct nx as [t'|o]; [|discriminate Hg]. injection Hg as <-. cbn [fl_task].
      apply resume_after in H. destruct t'; try exact Logic.I; cbn in H.
      * destruct H.
      * destruct H as (j' & b & fee & -> & _ & -> & _). intros Hf. cbn in Hf.
        destruct (IH _ _ Hget) as [f Ef]. change (withdrawal_native_fee (sys_state s) = None) in Hf. congruence.
    + rewrite install_tasks in Hg. destruct (keqb i id); [discriminate Hg|exact (Hold _ Hg eq_refl)].
    + exact (Hold _ Hg eq_refl).
Qed.
Lemma burn_large_enough env s id fl p ledger amount d :
  reach self keccak env s -> bget id (sys_tasks s) = Some fl -> withdrawal_native_fee (sys_state s) = None ->
  task_call self (fl_task fl) =
    Some (TransferFrom ledger (default_account p) (default_account self) amount (Some (MemoBurn (BurnConvert d)))) ->
  native_ledger_transfer_fee (sys_state s) <= amount.
Proof.
  intros Hr Hg Hf Hc. pose proof (large_enough env s Hr id fl Hg) as H.
  destruct (fl_task fl); cbn in Hc; try discriminate Hc.
  injection Hc as _ _ <- _. exact (H Hf).
Qed.

End More.
