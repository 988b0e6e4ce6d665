(** * Progress: waiting deposits can be minted, from every reachable state. *)

From Verif Require Import Base BMap MultiKeyMap MultiKeyMapFacts Bytes Types Amount ArithFacts Tx CallData
  Network Hex Transactions State Audit Ranges Rlp Parser Memo Driver Sys SysSpec WtInv StateEquiv
  Segments Tasks SysFacts CoreInv LogFacts WeakSteps DepositSpec Deposits GuardSpec Guards GuardFacts MintFacts
  FinalizeFacts LiveSpec.

Lemma room_answer s n c b : (forall c' b', In (c', b') (sys_ops s) -> b' < b) -> b + 1 + n <= 2 ^ 64 ->
  forall s', sys_ops s' = sys_ops s ++ [(c, b)] -> room s' n.
Proof.
  intros Hf Hn s' E. exists (b + 1). split; [|lia]. intros c' b' Hin. rewrite E in Hin. apply in_app_or in Hin as [Hin|[Hin|[]]].
  - apply Hf in Hin. lia.
  - injection Hin as <- <-. lia.
Qed.
Lemma room_le s m n : room s m -> n <= m -> room s n.
Proof. intros (b & H1 & H2) H. exists b. split; [auto|lia]. Qed.
Lemma room_same s s' n : sys_ops s' = sys_ops s -> room s n -> room s' n.
Proof. intros E (b & H). exists b. rewrite E. exact H. Qed.

Section Live.
Variable self : Principal.
Variable keccak : list N -> Hash.
Notation step := (step self keccak).
Notation run := (run self keccak).
Notation R := (reach self keccak any_env).

Lemma run_app s a b : run s (a ++ b) = run (run s a) b.
Proof. apply fold_left_app. Qed.
Lemma run_reach s ls : R s -> R (run s ls).
Proof. revert s. induction ls as [|l ls IH]; cbn; auto. intros s H. apply IH. apply reach_step; [exact H|exact Logic.I]. Qed.

(** ** A ledger executes what a suspended function asked for *)
Lemma answer_ok s id t c b : bget id (sys_tasks s) = Some {| fl_task := t; fl_reply := None |} ->
  task_call self t = Some c -> is_burn self c = false -> (forall c' b', In (c', b') (sys_ops s) -> b' < b) ->
  step s (LAnswer id (ReLedger (LedgerOk b))) =
  with_op (c, b) (with_tasks (binsert id {| fl_task := t; fl_reply := Some (ReLedger (LedgerOk b)) |} (sys_tasks s)) s).
Proof.
  intros Hg Hc Hb Hf. cbn [Sys.step]. rewrite Hg. cbn [reply_fits]. rewrite Hc. cbn [is_some].
  assert (Ha : ledger_allows self (sys_ops s) c b = true).
  { unfold ledger_allows. rewrite Hb, andb_true_r. apply negb_true_iff. apply not_true_iff_false. intros E.
    apply existsb_exists in E as ([c' b'] & Hin & E). apply Hf in Hin. cbn [fst snd] in E. apply andb_prop in E as [_ E].
    apply N.eqb_eq in E. lia. }
  rewrite Ha. reflexivity.
Qed.
(** ** Deposits *)
Record calm (s s' : State) : Prop := {
  cm_fee : deposit_native_fee s' = deposit_native_fee s;
  cm_fewer : forall src e, waiting s' src e -> waiting s src e;
  cm_fate : forall src e, waiting s src e -> waiting s' src e \/ exists m, minted s' src m /\ me_deposit_event m = e
}.
Lemma calm_refl s : calm s s.
Proof. constructor; auto. Qed.
Lemma calm_same s s' : deposit_native_fee s' = deposit_native_fee s -> events_to_mint s' = events_to_mint s -> calm s s'.
Proof. intros H1 H2. constructor; auto; unfold waiting; rewrite H2; auto. Qed.
Lemma calm_covered s s' : calm s s' -> covered s -> covered s'.
Proof. intros [H1 H2 _] H src x Hx. rewrite H1. apply (H src). apply H2. exact Hx. Qed.
Lemma calm_trans s a b : calm (sys_state s) a -> calm a b ->
  (forall src m, minted a src m -> minted b src m) -> calm (sys_state s) b.
Proof.
  intros [F1 F2 F3] [G1 G2 G3] Hm. constructor.
  - congruence.
  - auto.
  - intros src e H. destruct (F3 _ _ H) as [H'|(m & H' & E)]; [apply G3; auto|right; eauto].
Qed.

Definition idle (s : Sys) : Prop := forall id, ~ running_activity s id Minting.
(** Function [id] works on the first of [es]; the answer of the ledger is outstanding *)
Definition at_work (s : Sys) (id : N) (es : list ReceivedDepositEvent) : Prop :=
  match es with
  | [] => idle s
  | e :: es => exists j, bget id (sys_tasks s) = Some {| fl_task := TMint j; fl_reply := None |} /\
      mj_event j = e /\ mj_rest j = es
  end.

Lemma next_shape fee l es c c' nx : mint_next fee l es c = Done (c', nx) ->
  calm (fst c) (fst c') /\ (forall src m, minted (fst c) src m -> minted (fst c') src m) /\
  match es with
  | [] => exists o, nx = Finish o
  | e :: es => exists j, nx = Await (TMint j) /\ mj_event j = e /\ mj_rest j = es
  end.
Proof.
  unfold mint_next. destruct es as [|e es]; intros H.
  - unfold end_timer in H. injection H as <- <-. split; [apply calm_same; reflexivity|]. split; [auto|eauto].
  - apply rbind_done in H as ([sy le] & _ & H). apply rbind_done in H as (a & _ & H). injection H as <- <-.
    split; [apply calm_refl|]. split; [auto|]. eexists. split; [reflexivity|auto].
Qed.
Lemma record_shape s j b now c' nx : R s -> job_ok (dv (sys_state s)) j ->
  mint_record now j b (sys_core s) = Done (c', nx) ->
  calm (sys_state s) (fst c') /\
  match mj_rest j with
  | [] => exists o, nx = Finish o
  | e :: es => exists j, nx = Await (TMint j) /\ mj_event j = e /\ mj_rest j = es
  end.
Proof.
  intros Hr Hj H. destruct (record_minted (sys_state s) j b (sys_log s) (hist_reach self keccak any_env s Hr) Hj)
    as (s1 & E & (m & Hm & Hb & He) & Ew & Ef & _).
  unfold mint_record, process_event in H. change (fst (sys_core s)) with (sys_state s) in H. rewrite E in H. cbn [rbind] in H.
  apply next_shape in H as (H1 & H2 & H3). split; [|exact H3]. cbn [fst] in H1, H2.
  assert (Hc : calm (sys_state s) s1).
  { constructor; auto.
    - intros src e. unfold waiting. rewrite Ew, bget_remove. destruct (keqb src _); [discriminate|auto].
    - intros src e Hx. unfold waiting in *. rewrite Ew, bget_remove. destruct (keqb_spec src (dep_source (mj_event j))) as [->|Hn]; [|auto].
      right. exists m. split; auto. assert (Hw := jo_wait _ _ Hj _ (or_introl eq_refl)). cbn in Hw. congruence. }
  eapply calm_trans; eauto.
Qed.

(** Where a step leaves the function *)
Lemma work_after s id t r now c nx es :
  R s -> bget id (sys_tasks s) = Some {| fl_task := t; fl_reply := Some r |} -> doing t Minting ->
  match es with
  | [] => exists o, nx = Finish o
  | e :: es => exists j, nx = Await (TMint j) /\ mj_event j = e /\ mj_rest j = es
  end ->
  at_work (install id nx (with_queries (task_query t r) (with_core c now s))) id es.
Proof.
  intros Hr Hg Hd Hn. destruct es as [|e es]; cbn [at_work].
  - destruct Hn as (o & ->). intros i (t' & r' & Hi & Ht). rewrite install_tasks in Hi. destruct (keqb_spec i id) as [->|Hne]; [discriminate|].
    apply Hne. eapply (one_at_a_time self keccak any_env s Hr i id Minting); [exists t', r'; auto|exists t, (Some r); auto].
  - destruct Hn as (j & -> & E1 & E2). exists j. split; [|auto]. rewrite install_tasks, (proj2 (keqb_eq id id) eq_refl). reflexivity.
Qed.

(** A recorded answer of a ledger is delivered. *)
Lemma deliver_mint s id j r : R s -> covered (sys_state s) ->
  bget id (sys_tasks s) = Some {| fl_task := TMint j; fl_reply := Some (ReLedger r) |} ->
  (forall b, r = LedgerOk b -> b <= U64_MAX) ->
  let s' := step s (LDeliver id false (sys_clock s)) in
  sys_ops s' = sys_ops s /\ calm (sys_state s) (sys_state s') /\
  match r with
  | LedgerOk b =>
      bget id (sys_tasks s') = Some {| fl_task := TMintFee j b; fl_reply := None |} \/
      (at_work s' id (mj_rest j) /\ exists m, minted (sys_state s') (dep_source (mj_event j)) m /\ me_deposit_event m = mj_event j)
  | _ => at_work s' id (mj_rest j)
  end.
Proof.
  intros Hr Hc Hg Hb. cbv zeta. assert (Hj : job_ok (dv (sys_state s)) j) by (eapply (mo_job _ (mints_reach self keccak any_env s Hr)); [exact Hg|left; reflexivity]).
  pose proof (mint_progress self keccak any_env s id j r (sys_clock s) Hr ltac:(lia) Hc Hg Hb) as Hp. cbv zeta in Hp.
  assert (Hd : exists c nx, resume keccak (sys_clock s) (TMint j) (ReLedger r) (sys_core s) = Done (c, nx)).
  { assert (Hskip : exists c nx, mint_next (mj_fee j) (mj_native_ledger j) (mj_rest j) (sys_core s) = Done (c, nx)).
    { destruct (mint_next_total (mj_fee j) (mj_native_ledger j) (mj_rest j) (sys_core s)) as (c & nx & E & _); eauto.
      - rewrite (jo_fee _ _ Hj). reflexivity.
      - intros e He. assert (Hw := jo_wait _ _ Hj e (or_intror He)).
        destruct (ho_wait _ _ (hist_reach self keccak any_env s Hr) _ _ Hw) as (_ & _ & Hs). split; [exact Hw|exact Hs]. }
    cbn [resume]. unfold mint_reply. destruct r as [b| |]; auto. unfold block_u64. specialize (Hb b eq_refl). apply N.leb_le in Hb. rewrite Hb.
    cbn [rassert rbind]. destruct (_ && _); eauto.
    destruct (record_moves self keccak any_env s id j b (sys_clock s) Hr Hc Hj) as (c & nx & E & _). eauto. }
  destruct Hd as (c & nx & E). rewrite (deliver_any self keccak s id _ _ _ c nx (N.le_refl _) Hg E) in *.
  rewrite install_ops. split; [reflexivity|]. unfold sys_state at 2. rewrite install_core. cbn [sys_core with_queries with_core].
  assert (Hsk : forall c nx, mint_next (mj_fee j) (mj_native_ledger j) (mj_rest j) (sys_core s) = Done (c, nx) -> 
    calm (sys_state s) (fst c) /\ at_work (install id nx (with_queries (task_query (TMint j) (ReLedger r)) (with_core c (sys_clock s) s))) id (mj_rest j)).
  { intros c0 nx0 E0. apply next_shape in E0 as (H1 & _ & H3). split; [exact H1|].
    eapply work_after; [exact Hr|exact Hg|left; eauto|exact H3]. }
  cbn [resume] in E. unfold mint_reply in E. destruct r as [b| |]; [|apply Hsk; exact E|apply Hsk; exact E].
  apply rbind_done in E as (b' & Hb' & E). apply block_u64_done in Hb' as [-> _]. destruct (_ && _).
  - injection E as <- <-. split; [apply calm_refl|]. left. rewrite install_tasks, (proj2 (keqb_eq id id) eq_refl). reflexivity.
  - apply record_shape in E as [H1 H2]; auto. split; [exact H1|]. right.
    split; [eapply work_after; [exact Hr|exact Hg|left; eauto|exact H2]|].
    destruct Hp as [Hp|[_ (m & P1 & _ & P3)]]; [|eauto].
    exfalso. rewrite install_tasks, (proj2 (keqb_eq id id) eq_refl) in Hp. destruct (mj_rest j); [destruct H2 as (o & ->)|destruct H2 as (j' & -> & _)]; discriminate.
Qed.
Lemma deliver_fee s id j b r : R s -> covered (sys_state s) ->
  bget id (sys_tasks s) = Some {| fl_task := TMintFee j b; fl_reply := Some (ReLedger r) |} ->
  let s' := step s (LDeliver id false (sys_clock s)) in
  sys_ops s' = sys_ops s /\ calm (sys_state s) (sys_state s') /\ at_work s' id (mj_rest j) /\
  exists m, minted (sys_state s') (dep_source (mj_event j)) m /\ me_deposit_event m = mj_event j.
Proof.
  intros Hr Hc Hg. cbv zeta. assert (Hj : job_ok (dv (sys_state s)) j) by (eapply (mo_job _ (mints_reach self keccak any_env s Hr)); [exact Hg|right; exists b; reflexivity]).
  destruct (record_moves self keccak any_env s id j b (sys_clock s) Hr Hc Hj) as (c & nx & E & _ & (m & Hm & _ & He)).
  rewrite (deliver_any self keccak s id _ _ _ c nx (N.le_refl _) Hg E). rewrite install_ops. split; [reflexivity|].
  unfold sys_state at 2 3. rewrite install_core. cbn [sys_core with_queries with_core].
  apply record_shape in E as [H1 H2]; auto. split; [exact H1|].
  split; [eapply work_after; [exact Hr|exact Hg|right; eauto|exact H2]|eauto].
Qed.

(** The result of a schedule *)
Record progress (s s' : Sys) (es : list ReceivedDepositEvent) : Prop := {
  pg_calm : calm (sys_state s) (sys_state s');
  pg_idle : idle s';
  pg_done : forall e, In e es -> exists m, minted (sys_state s') (dep_source e) m /\ me_deposit_event m = e
}.
Lemma minted_run s ls src m : R s -> minted (sys_state s) src m -> minted (sys_state (run s ls)) src m.
Proof. intros Hr. apply (proj1 (fates_final self keccak any_env s src ls Hr)). Qed.
Lemma progress_more s ls ls' es es' : R s -> calm (sys_state s) (sys_state (run s ls)) -> progress (run s ls) (run (run s ls) ls') es' ->
  (forall e, In e es -> In e es' \/ exists m, minted (sys_state (run s ls)) (dep_source e) m /\ me_deposit_event m = e) ->
  progress s (run s (ls ++ ls')) es.
Proof.
  intros Hr Hc [P1 P2 P3] He. rewrite run_app. constructor; auto.
  - eapply calm_trans; [exact Hc|exact P1|]. intros src m. apply minted_run. apply run_reach; auto.
  - intros e Hin. destruct (He _ Hin) as [Hin'|(m & Hm & E)]; [auto|]. exists m. split; auto. apply minted_run; [apply run_reach; auto|auto].
Qed.

Lemma finish_work es : forall s id n, R s -> covered (sys_state s) -> at_work s id es ->
  room s (2 * N.of_nat (List.length es) + n) ->
  exists ls, Forall accepting ls /\ progress s (run s ls) es /\ room (run s ls) n.
Proof.
  induction es as [|e es IH]; intros s id n Hr Hc Hw Hroom; cbn [at_work] in Hw.
  - exists []. split; [constructor|]. split; [constructor; [apply calm_refl|exact Hw|intros ? []]|]. eapply room_le; [exact Hroom|lia].
  - destruct Hw as (j & Hg & Ej & Es). cbn [List.length] in Hroom. destruct Hroom as (b & Hf & Hb).
    set (s1 := step s (LAnswer id (ReLedger (LedgerOk b)))).
    assert (H1 : s1 = with_op (mint_call j, b) (with_tasks (binsert id {| fl_task := TMint j; fl_reply := Some (ReLedger (LedgerOk b)) |} (sys_tasks s)) s)).
    { apply answer_ok; auto. }
    assert (R1 : R s1) by (apply reach_step; [exact Hr|exact Logic.I]).
    assert (C1 : sys_core s1 = sys_core s) by (rewrite H1; reflexivity).
    assert (S1 : sys_state s1 = sys_state s) by (unfold sys_state; rewrite C1; reflexivity).
    assert (G1 : bget id (sys_tasks s1) = Some {| fl_task := TMint j; fl_reply := Some (ReLedger (LedgerOk b)) |}).
    { rewrite H1. cbn. apply bget_insert_eq. }
    assert (Hb64 : b <= U64_MAX). { replace (2 ^ 64) with (U64_MAX + 1) in Hb by (vm_compute; reflexivity). lia. }
    assert (Room1 : room s1 (1 + (2 * N.of_nat (List.length es) + n))).
    { eapply room_answer; [exact Hf| |rewrite H1; reflexivity]. lia. }
    assert (Hc1 : covered (sys_state s1)) by (rewrite S1; exact Hc).
    pose proof (deliver_mint s1 id j (LedgerOk b) R1 Hc1 G1 ltac:(intros b' [= <-]; exact Hb64)) as (O2 & C2 & Hn).
    set (s2 := step s1 (LDeliver id false (sys_clock s1))) in *. assert (R2 : R s2) by (apply reach_step; [exact R1|exact Logic.I]).
    rewrite S1 in C2. pose proof (calm_covered _ _ C2 Hc) as Hc2.
    assert (Room2 : room s2 (1 + (2 * N.of_nat (List.length es) + n))) by (eapply room_same; [exact O2|exact Room1]).
    destruct Hn as [G2|[W2 (m & M2 & E2)]].
    + destruct Room2 as (b2 & Hf2 & Hb2). set (s3 := step s2 (LAnswer id (ReLedger (LedgerOk b2)))).
      destruct (task_call self (TMintFee j b)) as [c3|] eqn:Ec3; [|discriminate].
      assert (H3 : s3 = with_op (c3, b2) (with_tasks (binsert id {| fl_task := TMintFee j b; fl_reply := Some (ReLedger (LedgerOk b2)) |} (sys_tasks s2)) s2)).
      { apply answer_ok; auto. cbn in Ec3. injection Ec3 as <-. reflexivity. }
      assert (R3 : R s3) by (apply reach_step; [exact R2|exact Logic.I]).
      assert (S3 : sys_state s3 = sys_state s2) by (rewrite H3; reflexivity).
      assert (G3 : bget id (sys_tasks s3) = Some {| fl_task := TMintFee j b; fl_reply := Some (ReLedger (LedgerOk b2)) |}).
      { rewrite H3. cbn. apply bget_insert_eq. }
      assert (Room3 : room s3 (2 * N.of_nat (List.length es) + n)).
      { eapply room_answer; [exact Hf2| |rewrite H3; reflexivity]. lia. }
      assert (Hc3 : covered (sys_state s3)) by (rewrite S3; exact Hc2).
      pose proof (deliver_fee s3 id j b (LedgerOk b2) R3 Hc3 G3) as (O4 & C4 & W4 & (m & M4 & E4)).
      set (s4 := step s3 (LDeliver id false (sys_clock s3))) in *. assert (R4 : R s4) by (apply reach_step; [exact R3|exact Logic.I]).
      rewrite S3 in C4. assert (C04 : calm (sys_state s) (sys_state s4)).
      { eapply calm_trans; [exact C2|exact C4|]. intros src m0 Hm0. rewrite <- S3 in Hm0.
        exact (minted_run s3 [LDeliver id false (sys_clock s3)] src m0 R3 Hm0). }
      rewrite Es in W4. assert (Room4 : room s4 (2 * N.of_nat (List.length es) + n)) by (eapply room_same; [exact O4|exact Room3]).
      destruct (IH s4 id n R4 (calm_covered _ _ C04 Hc) W4 Room4) as (ls & A & P & Rm).
      set (l0 := [LAnswer id (ReLedger (LedgerOk b)); LDeliver id false (sys_clock s1); LAnswer id (ReLedger (LedgerOk b2)); LDeliver id false (sys_clock s3)]).
      exists (l0 ++ ls). split; [repeat (constructor; [exact Logic.I|]); exact A|].
      assert (E0 : run s l0 = s4) by reflexivity. split; [|rewrite run_app, E0; exact Rm].
      apply (progress_more s l0 ls _ es); [exact Hr|rewrite E0; exact C04|rewrite E0; exact P|].
      intros e' [<-|Hin]; [right|auto]. rewrite E0. exists m. rewrite <- Ej. auto.
    + rewrite Es in W2. assert (Room2' : room s2 (2 * N.of_nat (List.length es) + n)) by (eapply room_le; [exact Room2|lia]).
      destruct (IH s2 id n R2 Hc2 W2 Room2') as (ls & A & P & Rm).
      set (l0 := [LAnswer id (ReLedger (LedgerOk b)); LDeliver id false (sys_clock s1)]).
      exists (l0 ++ ls). split; [repeat (constructor; [exact Logic.I|]); exact A|].
      assert (E0 : run s l0 = s2) by reflexivity. split; [|rewrite run_app, E0; exact Rm].
      apply (progress_more s l0 ls _ es); [exact Hr|rewrite E0; exact C2|rewrite E0; exact P|].
      intros e' [<-|Hin]; [right|auto]. rewrite E0. exists m. rewrite <- Ej. auto.
Qed.
(** ** The answer kept with a suspended function is of the kind it waits for *)
Lemma fits_reach (env : Sys -> Label -> Prop) s : reach self keccak env s ->
  forall id t r, bget id (sys_tasks s) = Some {| fl_task := t; fl_reply := Some r |} -> reply_fits self t r = true.
Proof.
  intros H. apply (reach_inv self keccak env (fun s => forall id t r,
    bget id (sys_tasks s) = Some {| fl_task := t; fl_reply := Some r |} -> reply_fits self t r = true)); [| |exact H]; clear s H.
  - intros now a s0 H id t r. apply sys_init_inv in H as (_ & _ & _ & -> & _). discriminate.
  - intros s l s' IH _ H id' t' r'.
    destruct H as [|k now c nx Hc H|u now c nx Hc H|k now Hc|u now Hc|id t c b Hget Hcall Hallow|id t r Hget Hfit Hno|id now t r c nx Hc Hget H|id trap now t r c Hc Hget Hp H|a now c Hc Ht H];
      cbn [bump_next with_outcome with_core with_call with_op with_queries sys_tasks].
    + apply IH.
    + rewrite install_tasks. destruct (keqb id' (sys_next s)); [destruct nx; discriminate|apply IH].
    + rewrite install_tasks. destruct (keqb id' (sys_next s)); [destruct nx; discriminate|apply IH].
    + apply IH.
    + apply IH.
    + unfold answered. cbn. rewrite bget_insert. destruct (keqb id' id); [|apply IH]. injection 1 as <- <-. cbn [reply_fits]. rewrite Hcall. reflexivity.
    + unfold answered. cbn. rewrite bget_insert. destruct (keqb id' id); [|apply IH]. injection 1 as <- <-. exact Hfit.
    + rewrite install_tasks. destruct (keqb id' id); [destruct nx; discriminate|apply IH].
    + rewrite install_tasks. destruct (keqb id' id); [discriminate|apply IH].
    + apply IH.
Qed.

(** ** A running function is brought to its end, then a new one is started *)
Definition pending (s : Sys) : N := N.of_nat (List.length (events_to_mint (sys_state s))).
Lemma waiting_bound s es : R s -> NoDup (map dep_source es) ->
  (forall e, In e es -> waiting (sys_state s) (dep_source e) e) -> N.of_nat (List.length es) <= pending s.
Proof.
  intros Hr Hd Hw. unfold pending. assert (H : (List.length (map dep_source es) <= List.length (bkeys (events_to_mint (sys_state s))))%nat).
  { apply NoDup_incl_length; [exact Hd|]. intros k Hk. apply in_map_iff in Hk as (e & <- & He). apply bget_In_keys. rewrite (Hw e He : bget _ _ = _). discriminate. }
  unfold bkeys in H. rewrite !map_length in H. lia.
Qed.
Lemma pending_fewer s s' : R s' -> calm (sys_state s) (sys_state s') -> pending s' <= pending s.
Proof.
  intros Hr [_ H _]. unfold pending.
  assert (Hs : bsorted (events_to_mint (sys_state s'))) by exact (ho_wait_sorted _ _ (hist_reach self keccak any_env s' Hr)).
  assert (Hx : (List.length (bkeys (events_to_mint (sys_state s'))) <= List.length (bkeys (events_to_mint (sys_state s))))%nat).
  { apply NoDup_incl_length; [apply bsorted_NoDup; exact Hs|]. intros k Hk. unfold bkeys in Hk. apply in_map_iff in Hk as ([k' e] & <- & He).
    apply bget_In_keys. cbn [fst]. rewrite (H k' e (bget_of_In _ _ _ (bsorted_NoDup _ Hs) He) : bget _ _ = _). discriminate. }
  unfold bkeys in Hx. rewrite !map_length in Hx. lia.
Qed.

Lemma rest_bound s j : R s -> job_ok (dv (sys_state s)) j -> 1 + N.of_nat (List.length (mj_rest j)) <= pending s.
Proof.
  intros Hr Hj. replace (1 + N.of_nat (List.length (mj_rest j))) with (N.of_nat (List.length (mj_event j :: mj_rest j))) by (cbn [List.length]; lia).
  apply waiting_bound; [exact Hr|exact (jo_nodup _ _ Hj)|exact (jo_wait _ _ Hj)].
Qed.

Lemma finish_running s id n : R s -> covered (sys_state s) -> running_activity s id Minting -> room s (2 * pending s + n) ->
  exists ls, Forall accepting ls /\ progress s (run s ls) [] /\ room (run s ls) n.
Proof.
  intros Hr Hc (t & r & Hg & Hd) Hroom.
  (* once an answer is recorded *)
  assert (Hmint : forall s j a n, R s -> covered (sys_state s) ->
    bget id (sys_tasks s) = Some {| fl_task := TMint j; fl_reply := Some (ReLedger a) |} -> room s (2 * pending s + n) ->
    exists ls, Forall accepting ls /\ progress s (run s ls) [] /\ room (run s ls) n).
  { clear s r n Hr Hc Hg Hroom. intros s j a n Hr Hc Hg Hroom.
    assert (Hj : job_ok (dv (sys_state s)) j) by (eapply (mo_job _ (mints_reach self keccak any_env s Hr)); [exact Hg|left; reflexivity]).
    pose proof (rest_bound s j Hr Hj) as Hlen.
    assert (Hb : forall b, a = LedgerOk b -> b <= U64_MAX).
    { intros b ->. assert (Hin : In (mint_call j, b) (sys_ops s)) by (eapply (mo_paid _ (mints_reach self keccak any_env s Hr)); [exact Hg|left; auto]).
      destruct Hroom as (nb & Hf & Hnb). apply Hf in Hin. replace (2 ^ 64) with (U64_MAX + 1) in Hnb by (vm_compute; reflexivity). lia. }
    pose proof (deliver_mint s id j a Hr Hc Hg Hb) as (O & C & Hn).
    set (s' := step s (LDeliver id false (sys_clock s))) in *. assert (R' : R s') by (apply reach_step; [exact Hr|exact Logic.I]).
    pose proof (calm_covered _ _ C Hc) as Hc'. assert (Room' : room s' (2 * pending s + n)) by (eapply room_same; [exact O|exact Hroom]).
    assert (Hwork : at_work s' id (mj_rest j) -> exists ls, Forall accepting ls /\ progress s (run s ls) [] /\ room (run s ls) n).
    { intros W. destruct (finish_work (mj_rest j) s' id n R' Hc' W) as (ls & A & P & Rm); [eapply room_le; [exact Room'|lia]|].
      exists ([LDeliver id false (sys_clock s)] ++ ls). split; [constructor; [exact Logic.I|exact A]|]. split; [|exact Rm].
      apply (progress_more s [_] ls [] (mj_rest j)); [exact Hr|exact C|exact P|intros ? []]. }
    destruct a as [b| |]; [|auto|auto]. destruct Hn as [G2|[W _]]; [|auto].
    destruct Room' as (b2 & Hf2 & Hb2). destruct (task_call self (TMintFee j b)) as [c3|] eqn:Ec3; [|discriminate].
    set (s3 := step s' (LAnswer id (ReLedger (LedgerOk b2)))).
    assert (H3 : s3 = with_op (c3, b2) (with_tasks (binsert id {| fl_task := TMintFee j b; fl_reply := Some (ReLedger (LedgerOk b2)) |} (sys_tasks s')) s')).
    { apply answer_ok; auto. cbn in Ec3. injection Ec3 as <-. reflexivity. }
    assert (R3 : R s3) by (apply reach_step; [exact R'|exact Logic.I]).
    assert (S3 : sys_state s3 = sys_state s') by (rewrite H3; reflexivity).
    assert (G3 : bget id (sys_tasks s3) = Some {| fl_task := TMintFee j b; fl_reply := Some (ReLedger (LedgerOk b2)) |}).
    { rewrite H3. cbn. apply bget_insert_eq. }
    assert (Room3 : room s3 (2 * N.of_nat (List.length (mj_rest j)) + n)).
    { eapply room_answer; [exact Hf2| |rewrite H3; reflexivity]. lia. }
    assert (Hc3 : covered (sys_state s3)) by (rewrite S3; exact Hc').
    pose proof (deliver_fee s3 id j b (LedgerOk b2) R3 Hc3 G3) as (O4 & C4 & W4 & (m & M4 & E4)).
    set (s4 := step s3 (LDeliver id false (sys_clock s3))) in *. assert (R4 : R s4) by (apply reach_step; [exact R3|exact Logic.I]).
    rewrite S3 in C4. assert (C04 : calm (sys_state s) (sys_state s4)).
    { eapply calm_trans; [exact C|exact C4|]. intros src m0 Hm0. rewrite <- S3 in Hm0.
      exact (minted_run s3 [LDeliver id false (sys_clock s3)] src m0 R3 Hm0). }
    assert (Room4 : room s4 (2 * N.of_nat (List.length (mj_rest j)) + n)) by (eapply room_same; [exact O4|exact Room3]).
    destruct (finish_work (mj_rest j) s4 id n R4 (calm_covered _ _ C04 Hc) W4 Room4) as (ls & A & P & Rm).
    set (l0 := [LDeliver id false (sys_clock s); LAnswer id (ReLedger (LedgerOk b2)); LDeliver id false (sys_clock s3)]).
    exists (l0 ++ ls). split; [repeat (constructor; [exact Logic.I|]); exact A|].
    assert (E0 : run s l0 = s4) by reflexivity. split; [|rewrite run_app, E0; exact Rm].
    apply (progress_more s l0 ls [] (mj_rest j)); [exact Hr|rewrite E0; exact C04|rewrite E0; exact P|intros ? []]. }
  assert (Hfee : forall s j b a n, R s -> covered (sys_state s) ->
    bget id (sys_tasks s) = Some {| fl_task := TMintFee j b; fl_reply := Some (ReLedger a) |} -> room s (2 * N.of_nat (List.length (mj_rest j)) + n) ->
    exists ls, Forall accepting ls /\ progress s (run s ls) [] /\ room (run s ls) n).
  { clear s r n Hr Hc Hg Hroom. intros s j b a n Hr Hc Hg Hroom.
    pose proof (deliver_fee s id j b a Hr Hc Hg) as (O & C & W & _).
    set (s' := step s (LDeliver id false (sys_clock s))) in *. assert (R' : R s') by (apply reach_step; [exact Hr|exact Logic.I]).
    destruct (finish_work (mj_rest j) s' id n R' (calm_covered _ _ C Hc) W) as (ls & A & P & Rm); [eapply room_same; [exact O|exact Hroom]|].
    exists ([LDeliver id false (sys_clock s)] ++ ls). split; [constructor; [exact Logic.I|exact A]|]. split; [|exact Rm].
    apply (progress_more s [_] ls [] (mj_rest j)); [exact Hr|exact C|exact P|intros ? []]. }
  destruct Hd as [(j & ->)|(j & b & ->)].
  - assert (Hj : job_ok (dv (sys_state s)) j) by (eapply (mo_job _ (mints_reach self keccak any_env s Hr)); [exact Hg|left; reflexivity]).
    pose proof (rest_bound s j Hr Hj) as Hlen. destruct r as [r|].
    + assert (Hfit := fits_reach any_env s Hr _ _ _ Hg). destruct r; try discriminate Hfit. eapply Hmint; eauto.
    + destruct (finish_work (mj_event j :: mj_rest j) s id n Hr Hc) as (ls & A & P & Rm).
      * cbn. eauto.
      * eapply room_le; [exact Hroom|]. cbn [List.length]. lia.
      * exists ls. split; [exact A|]. split; [|exact Rm]. destruct P as [P1 P2 P3]. constructor; auto. intros ? [].
  - assert (Hj : job_ok (dv (sys_state s)) j) by (eapply (mo_job _ (mints_reach self keccak any_env s Hr)); [exact Hg|right; exists b; reflexivity]).
    pose proof (rest_bound s j Hr Hj) as Hlen. destruct r as [r|].
    + assert (Hfit := fits_reach any_env s Hr _ _ _ Hg). destruct r; try discriminate Hfit. eapply Hfee; eauto.
      eapply room_le; [exact Hroom|]. lia.
    + destruct Hroom as (b2 & Hf2 & Hb2). destruct (task_call self (TMintFee j b)) as [c3|] eqn:Ec3; [|discriminate].
      set (s3 := step s (LAnswer id (ReLedger (LedgerOk b2)))).
      assert (H3 : s3 = with_op (c3, b2) (with_tasks (binsert id {| fl_task := TMintFee j b; fl_reply := Some (ReLedger (LedgerOk b2)) |} (sys_tasks s)) s)).
      { apply answer_ok; auto. cbn in Ec3. injection Ec3 as <-. reflexivity. }
      assert (R3 : R s3) by (apply reach_step; [exact Hr|exact Logic.I]).
      assert (S3 : sys_state s3 = sys_state s) by (rewrite H3; reflexivity).
      assert (G3 : bget id (sys_tasks s3) = Some {| fl_task := TMintFee j b; fl_reply := Some (ReLedger (LedgerOk b2)) |}).
      { rewrite H3. cbn. apply bget_insert_eq. }
      destruct (Hfee s3 j b (LedgerOk b2) n R3 ltac:(rewrite S3; exact Hc) G3) as (ls & A & P & Rm).
      { eapply room_answer; [exact Hf2| |rewrite H3; reflexivity]. lia. }
      exists ([LAnswer id (ReLedger (LedgerOk b2))] ++ ls). split; [constructor; [exact Logic.I|exact A]|]. split; [|exact Rm].
      apply (progress_more s [_] ls [] []); [exact Hr| |exact P|intros ? []].
      change (calm (sys_state s) (sys_state s3)). rewrite S3. apply calm_refl.
Qed.

Lemma running_dec s : R s -> idle s \/ exists id, running_activity s id Minting.
Proof.
  intros Hr. destruct (bmem TaskMint (active_tasks (sys_state s))) eqn:E.
  - right. eapply (timer_guard self keccak any_env s Hr Minting). exact E.
  - left. intros id H. assert (Ht : bmem TaskMint (active_tasks (sys_state s)) = true).
    { apply (timer_guard self keccak any_env s Hr Minting). exists id. exact H. }
    congruence.
Qed.

Lemma timer_calm s : R s -> idle s -> covered (sys_state s) ->
  let s' := step s (LTimer TimerMint (sys_clock s)) in
  sys_ops s' = sys_ops s /\ calm (sys_state s) (sys_state s') /\ at_work s' (sys_next s) (bvals (events_to_mint (sys_state s))).
Proof.
  intros Hr Hi Hc. cbv zeta. pose proof (mint_starts self keccak any_env s (sys_clock s) Hr ltac:(lia) Hc Hi) as Hm.
  cbn [Sys.step] in *. rewrite (proj2 (N.ltb_ge _ _) (N.le_refl _)) in *. unfold start_task in *. cbn [timer_start] in *.
  unfold mint_start in *. change (fst (sys_core s)) with (sys_state s) in *.
  rewrite (timer_guard_free self keccak any_env s Hr Minting Hi : timer_guard_new TaskMint (sys_state s) = _) in *.
  destruct (mint_next _ _ _ _) as [[c nx]|w] eqn:E.
  - apply next_shape in E as (H1 & _ & H3). cbn [fst] in H1. unfold sys_state at 2. cbn [bump_next sys_ops sys_core with_core].
    rewrite install_ops, install_core. cbn [sys_core with_core]. split; [reflexivity|].
    split; [destruct H1 as [F1 F2 F3]; constructor; [exact F1|exact F2|exact F3]|].
    change (events_to_mint_list (set_active_tasks (binsert (guard_of Minting) tt (active_tasks (sys_state s))) (sys_state s))) with (bvals (events_to_mint (sys_state s))) in H3.
    destruct (bvals (events_to_mint (sys_state s))) as [|e es]; cbn [at_work moves_on] in *; [|exact Hm].
    destruct H3 as (o & ->). intros i (t & r & Hg & Hd). cbn [bump_next sys_tasks] in Hg. rewrite install_tasks in Hg.
    destruct (keqb i (sys_next s)); [discriminate|]. apply (Hi i). exists t, r. auto.
  - exfalso. destruct (bvals (events_to_mint (sys_state s))) as [|e es] eqn:El; cbn [moves_on] in Hm.
    + unfold mint_next in E. change (events_to_mint_list (set_active_tasks (binsert (guard_of Minting) tt (active_tasks (sys_state s))) (sys_state s))) with (bvals (events_to_mint (sys_state s))) in E.
      rewrite El in E. discriminate.
    + destruct Hm as (j & Hg & _). cbn [bump_next with_outcome sys_tasks with_core] in Hg.
      apply (ids_lt _ (ids_reach self keccak any_env s Hr)) in Hg. lia.
Qed.

Lemma mint_round s : R s -> idle s -> covered (sys_state s) -> room s (2 * pending s) ->
  exists ls, Forall accepting ls /\ progress s (run s ls) (bvals (events_to_mint (sys_state s))).
Proof.
  intros Hr Hi Hc Hroom. pose proof (timer_calm s Hr Hi Hc) as (O & C & W).
  set (s' := step s (LTimer TimerMint (sys_clock s))) in *. assert (R' : R s') by (apply reach_step; [exact Hr|exact Logic.I]).
  destruct (finish_work _ s' _ 0 R' (calm_covered _ _ C Hc) W) as (ls & A & P & _).
  { eapply room_same; [exact O|]. eapply room_le; [exact Hroom|]. unfold bvals, pending. rewrite map_length. lia. }
  exists ([LTimer TimerMint (sys_clock s)] ++ ls). split; [constructor; [exact Logic.I|exact A]|].
  eapply (progress_more s [_] ls); [exact Hr|exact C|exact P|auto].
Qed.

Theorem deposits_live s : R s -> covered (sys_state s) -> room s (4 * pending s) ->
  exists ls, Forall accepting ls /\
    (forall src e, waiting (sys_state s) src e ->
       exists m, minted (sys_state (run s ls)) src m /\ me_deposit_event m = e) /\
    events_to_mint (sys_state (run s ls)) = [].
Proof.
  intros Hr Hc Hroom.
  assert (H : exists ls, Forall accepting ls /\ progress s (run s ls) [] /\ room (run s ls) (2 * pending s)).
  { destruct (running_dec s Hr) as [Hi|(id & Hid)].
    - exists []. split; [constructor|]. split; [constructor; [apply calm_refl|exact Hi|intros ? []]|]. eapply room_le; [exact Hroom|lia].
    - eapply (finish_running s id); eauto. eapply room_le; [exact Hroom|lia]. }
  destruct H as (l1 & A1 & [P1 P2 _] & Rm1). set (s1 := run s l1) in *. assert (R1 : R s1) by (apply run_reach; exact Hr).
  destruct (mint_round s1 R1 P2 (calm_covered _ _ P1 Hc)) as (l2 & A2 & [Q1 Q2 Q3]).
  { eapply room_le; [exact Rm1|]. pose proof (pending_fewer s s1 R1 P1). lia. }
  exists (l1 ++ l2). split; [apply Forall_app; auto|]. rewrite run_app. fold s1. set (s2 := run s1 l2) in *.
  assert (R2 : R s2) by (apply run_reach; exact R1).
  assert (Hdone : forall src e, waiting (sys_state s1) src e -> exists m, minted (sys_state s2) src m /\ me_deposit_event m = e).
  { intros src e H. assert (Hk : dep_source e = src) by exact (proj1 (ho_wait _ _ (hist_reach self keccak any_env s1 R1) _ _ H)).
    rewrite <- Hk. apply Q3. unfold waiting in H. apply bget_In in H. apply (in_map snd) in H. exact H. }
  split.
  - intros src e H. destruct (cm_fate _ _ P1 _ _ H) as [H1|(m & Hm & E)]; [auto|]. exists m. split; [|exact E]. apply minted_run; auto.
  - destruct (events_to_mint (sys_state s2)) as [|[k e] w] eqn:E; [reflexivity|]. exfalso.
    assert (Hw : waiting (sys_state s2) k e). { unfold waiting. rewrite E. cbn. rewrite (proj2 (keqb_eq k k) eq_refl). reflexivity. }
    destruct (Hdone k e (cm_fewer _ _ Q1 _ _ Hw)) as (m & Hm & _).
    assert (Hx := ho_wait_minted _ _ (hist_reach self keccak any_env s2 R2) _ _ Hw). unfold minted in Hm. cbn in Hx. congruence.
Qed.
End Live.
