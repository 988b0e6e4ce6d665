(** * Proofs for C70: a deposit of a token that is not registered stops the minter *)

From Verif Require Import Base BMap MultiKeyMap MultiKeyMapFacts Bytes Types Amount Network Transactions State Audit Ranges Parser
  Driver Sys SysSpec Tasks SysFacts RangesFacts Views ScrapeSpec ScrapeFacts Segments CoreInv WeakSteps Deposits DepositSpec
  TokenSpec TokenFacts ParserSpec ParserFacts UpgradeFacts FoundSpec FoundFacts StuckSpec.

Definition no_tokens (st : State) : Prop := dmkm_alt_keys (erc20_tokens st) = [].
Definition whole_filter : list Topic := [ TopicSingle DEPOSIT_TOPIC; TopicMultiple [] ].

Lemma next_scrape_whole st sc : no_tokens st -> next_scrape st = Done sc -> sc_topics sc = whole_filter.
Proof. unfold next_scrape, no_tokens. intros E H. apply rbind_done in H as (x & _ & H). injection H as <-. cbn. rewrite E. reflexivity. Qed.
Lemma whole_matches e x : encodes e x -> topics_match whole_filter (le_topics e).
Proof.
  intros (_ & _ & _ & (t & a & p & E & _) & _). rewrite E. unfold whole_filter. cbn. tauto.
Qed.

Lemma chunk_topics a tp ck c c' j : scrape_next_chunk a tp ck c = Done (c', Await (TScrapeLogs j)) -> sj_topics j = tp.
Proof.
  unfold scrape_next_chunk. intros H. apply rbind_done in H as ([o ck'] & _ & H). destruct o; [|discriminate H].
  injection H as _ <-. reflexivity.
Qed.
Lemma next_topics j q c c' j' : scrape_next j q c = Done (c', Await (TScrapeLogs j')) -> sj_topics j' = sj_topics j.
Proof. unfold scrape_next. destruct q; [apply chunk_topics|]. intros H. injection H as _ <-. reflexivity. Qed.

Section Stuck.
Variable self : Principal.
Variable keccak : list N -> Hash.

Lemma resume_topics now t r c c' j : no_tokens (fst c) ->
  (forall i, t = TScrapeLogs i -> sj_topics i = whole_filter) ->
  resume keccak now t r c = Done (c', Await (TScrapeLogs j)) -> sj_topics j = whole_filter.
Proof.
  intros Hn Hi H. pose proof (resume_logs self keccak _ _ _ _ _ _ H eq_refl) as Ht.
  destruct t; try discriminate; destruct r; try discriminate; cbn [resume] in H.
  - unfold scrape_block_reply in H.
    set (c1 := match r with Some number => _ | None => c end) in H.
    assert (N1 : no_tokens (fst c1)) by (destruct r; exact Hn).
    destruct (last_observed_block_number (fst c1)) as [last|].
    + unfold scrape_until_block in H. apply rbind_done in H as (sc & Hs & H). apply rbind_done in H as (ck & _ & H).
      apply chunk_topics in H. rewrite H. exact (next_scrape_whole _ _ N1 Hs).
    + destruct (_ <=? _); discriminate H.
  - unfold scrape_logs_reply in H. destruct (sj_current j0) as [from to]. destruct r.
    + apply rbind_done in H as ([ds es] & _ & H). apply rbind_done in H as (c1 & _ & H).
      apply next_topics in H. rewrite H. apply Hi. reflexivity.
    + destruct (from =? to).
      * apply rbind_done in H as (c1 & _ & H). apply next_topics in H. rewrite H. apply Hi. reflexivity.
      * apply rbind_done in H as (q & _ & H). apply next_topics in H. rewrite H. apply Hi. reflexivity.
    + discriminate H.
Qed.

Variable block_of : EventSource -> N.
Variable e : LogEntry.
Variable b : N.
Let E := complete_chain block_of e b.

Lemma complete_honest s : reach self keccak E s -> reach self keccak (honest_chain block_of) s.
Proof. apply reach_weaken. intros x l [H _]. exact H. Qed.

Lemma never_listed s : reach self keccak E s -> forall l c y, ~ listed (sys_state s) l c y.
Proof.
  induction 1 as [now a s H|s lab Hr IH He]; intros l c y Hl.
  - assert (Hr : reach self keccak E s) by (econstructor; eauto).
    apply (listed_iff _ (tokens_reach self keccak E s Hr)) in Hl.
    apply sys_init_inv in H as (st & H1 & H2 & _). unfold sys_state in Hl. rewrite H2 in Hl. cbn [fst] in Hl.
    apply state_of_init_spec in H1 as (_ & h & _ & -> & _). discriminate Hl.
  - destruct (proj2 (step_listed self keccak E s lab l c y Hr) Hl) as [K|(p & a & now & -> & _)]; [exact (IH _ _ _ K)|].
    destruct He as [_ []].
Qed.
Lemma never_tokens s : reach self keccak E s -> no_tokens (sys_state s).
Proof.
  intros Hr. unfold no_tokens. destruct (dmkm_alt_keys _) as [|c rest] eqn:Ek; auto. exfalso.
  destruct (alt_key_listed self keccak E s c Hr) as (l & y & Hl); [rewrite Ek; left; reflexivity|].
  exact (never_listed s Hr _ _ _ Hl).
Qed.

Record jobs (s : Sys) : Prop := {
  jb_topics : forall id j r, bget id (sys_tasks s) = Some {| fl_task := TScrapeLogs j; fl_reply := r |} -> sj_topics j = whole_filter;
  jb_reply : forall id j a, bget id (sys_tasks s) = Some {| fl_task := TScrapeLogs j; fl_reply := Some (ReLogs a) |} ->
    fst (sj_current j) <= b <= snd (sj_current j) ->
    match a with LogsOk logs => In e logs | LogsTooLarge => fst (sj_current j) <> snd (sj_current j) | LogsErr => True end
}.

Hypothesis matches : topics_match whole_filter (le_topics e).

Lemma jobs_reach s : reach self keccak E s -> jobs s.
Proof.
  apply (reach_inv2 self keccak E (fun s => no_tokens (sys_state s)) jobs); [exact never_tokens| |].
  - intros now a s0 H. apply sys_init_inv in H as (st & _ & _ & Ht & _). constructor; intros id j r; rewrite Ht; discriminate.
  - clear s. intros s l s' Hn _ [T R] [_ He] H.
    destruct H as [|k now c nx Hc H|u now c nx Hc H|k now Hc|u now Hc|id t c bl Hget Hcall Hallow|id t r Hget Hfit Hno|id now t r c nx Hc Hget H|id trap now t r c Hc Hget Hp H|a now c Hc Ht H].
    + constructor; auto.
    + assert (Hx : forall j, nx <> Await (TScrapeLogs j)) by (intros j ->; eapply timer_no_logs; eauto).
      constructor; intros i j r; cbn [bump_next sys_tasks]; rewrite install_tasks; destruct (keqb i (sys_next s)).
      * destruct nx; [|discriminate]. injection 1 as -> <-. edestruct Hx; reflexivity.
      * cbn. apply T.
      * destruct nx; discriminate.
      * cbn. apply R.
    + constructor; intros i j r; cbn [bump_next sys_tasks]; rewrite install_tasks; destruct (keqb i (sys_next s)).
      * destruct nx; [|discriminate]. injection 1 as -> <-. apply (call_no_logs keccak) in H. discriminate.
      * cbn. apply T.
      * destruct nx; discriminate.
      * cbn. apply R.
    + constructor; auto.
    + constructor; auto.
    + constructor; intros i j r; unfold answered; cbn [with_op with_tasks sys_tasks]; rewrite bget_insert; destruct (keqb_spec i id) as [->|Hk].
      * injection 1 as -> <-. exact (T _ _ _ Hget).
      * apply T.
      * discriminate.
      * apply R.
    + constructor; intros i j x; unfold answered; cbn [with_op with_tasks sys_tasks]; rewrite bget_insert; destruct (keqb_spec i id) as [->|Hk].
      * injection 1 as -> <-. exact (T _ _ _ Hget).
      * apply T.
      * injection 1 as -> ->. intros Hb. cbn in He. refine (He _ _ Hget Hb _). rewrite (T _ _ _ Hget). exact matches.
      * apply R.
    + constructor; intros i j x; rewrite install_tasks; destruct (keqb_spec i id) as [->|Hk].
      * destruct nx; [|discriminate]. injection 1 as -> <-.
        eapply resume_topics; [exact Hn| |exact H]. intros i ->. exact (T _ _ _ Hget).
      * cbn. apply T.
      * destruct nx; discriminate.
      * cbn. apply R.
    + constructor; intros i j x; rewrite install_tasks; destruct (keqb_spec i id) as [->|Hk]; try discriminate; cbn; [apply T|apply R].
    + constructor; intros i j x; cbn; rewrite Ht; discriminate.
Qed.

Variable d : ReceivedErc20Event.
Hypothesis parsed : parse_log e = Done (ROk (DepErc20 d)).

Lemma unlisted_refused now c c' ds es logs : tok_ok (erc20_tokens (fst c)) -> no_tokens (fst c) ->
  (forall x, In x logs -> wire x) -> In e logs -> parse_all_logs logs = Done (ds, es) ->
  process_events now (register_events ds es) c = Done c' -> False.
Proof.
  intros Ht Hn Hw He Hp H. pose proof (parsed_value _ _ _ Hw Hp) as Hv. apply parse_all_spec in Hp as (A & _).
  assert (Hd : In (DepErc20 d) ds) by (apply A; eauto).
  assert (Ha : acc (fst c) ds (refused_at es)) by (apply (batch_iff now es ds c Hv); eauto).
  pose proof (ac_token _ _ _ Ha _ Hd) as K. cbn in K. unfold dmkm_contains_alt, mkm_contains_alt in K. apply bmem_true in K as (v & K).
  unfold no_tokens, dmkm_alt_keys, mkm_alt_keys, bkeys in Hn. apply map_eq_nil in Hn. rewrite Hn in K. discriminate K.
Qed.

Lemma stuck_step s l : reach self keccak E s -> E s l -> last_scraped_block_number (sys_state s) < b ->
  last_scraped_block_number (sys_state (step self keccak s l)) < b.
Proof.
  intros Hr [Hh _] Hlt. pose proof (complete_honest s Hr) as Hr'. pose proof (jobs_reach s Hr) as [_ R].
  pose proof (never_tokens s Hr) as Hn. pose proof (tokens_reach self keccak E s Hr) as Ht.
  assert (Hs : scr_ok s).
  { apply (scr_reach self keccak (honest_chain block_of)); [|exact Hr']. intros y k [[H _] _]. exact H. }
  pose proof (behind_reach self keccak block_of s Hr') as [_ W].
  pose proof (step_trans self keccak s l) as H. remember (step self keccak s l) as s' eqn:Es. clear Es.
  pose proof Hh as [[_ Hpk] _].
  destruct (trans_queries self keccak s l s' Hpk H) as [(_ & ->)|(id & now & j & a & c & nx & _ & Hget & Hl & Hc & _)]; [exact Hlt|].
  unfold sys_state at 1. rewrite Hc. clear H Hc.
  destruct (so_job _ Hs _ _ _ Hget) as (target & _ & [J1 J2 _ _]). pose proof (R _ _ _ Hget) as Rj.
  pose proof (resume_view keccak now (TScrapeLogs j) (ReLogs a) (sys_core s) c nx Hl) as V. cbn [resumed] in V.
  unfold scrape_logs_reply in Hl. destruct (sj_current j) as [from to] eqn:Ej. cbn [fst snd] in *.
  destruct a as [logs| |]; apply (f_equal v_scraped) in V; cbn in V.
  - rewrite V. destruct (N.ltb_spec to b) as [Hb|Hb]; [exact Hb|]. exfalso.
    apply rbind_done in Hl as ([ds es] & Hp & Hl). apply rbind_done in Hl as (c1 & H1 & Hl).
    destruct (W _ _ _ Hget) as (Hw & _).
    eapply (unlisted_refused now _ _ ds es logs Ht Hn Hw); [apply Rj; lia|exact Hp|exact H1].
  - destruct (N.eqb_spec from to) as [Hft|Hft]; cbn in V; rewrite V; [|exact Hlt].
    destruct (N.ltb_spec to b) as [Hb|Hb]; [exact Hb|]. exfalso. apply (Rj ltac:(lia)). exact Hft.
  - rewrite V. exact Hlt.
Qed.

Lemma stuck_run s ls : reach self keccak E s -> all_along E self keccak s ls -> last_scraped_block_number (sys_state s) < b ->
  reach self keccak E (run self keccak s ls) /\ last_scraped_block_number (sys_state (run self keccak s ls)) < b.
Proof.
  intros Hr Ha Hlt. revert Ha. induction ls as [|l ls IH] using rev_ind; intros Ha; [split; assumption|].
  destruct (along_snoc _ _ _ _ _ _ Ha) as (H1 & H2). destruct (IH H1) as (I1 & I2). rewrite run_snoc. split.
  - constructor; assumption.
  - apply stuck_step; assumption.
Qed.
End Stuck.

Lemma stuck self keccak block_of e b block tx index x s ls :
  wire e -> mined e block tx index -> le_removed e = false -> encodes e x -> dl_token x <> 0 ->
  reach self keccak (complete_chain block_of e b) s -> all_along (complete_chain block_of e b) self keccak s ls ->
  last_scraped_block_number (sys_state s) < b ->
  last_scraped_block_number (sys_state (run self keccak s ls)) < b /\
  forall src, b <= block_of src -> ~ known (sys_state (run self keccak s ls)) src.
Proof.
  intros Hw Hm Hrm He Hx Hr Ha Hlt.
  assert (Hp : exists d, parse_log e = Done (ROk (DepErc20 d))).
  { destruct (parse_log_ok e (deposit_of x block tx index) Hw) as (_ & K).
    assert (Hd : parse_log e = Done (ROk (deposit_of x block tx index))) by (apply K; eauto 10).
    unfold deposit_of in Hd. destruct (N.eqb_spec (dl_token x) 0); [contradiction|]. eauto. }
  destruct Hp as (d & Hp).
  destruct (stuck_run self keccak block_of e b (whole_matches _ _ He) d Hp s ls Hr Ha Hlt) as (H1 & H2).
  split; [exact H2|]. intros src Hs K.
  pose proof (bh_known _ _ (behind_reach self keccak block_of _ (complete_honest _ _ _ _ _ _ H1)) src K). lia.
Qed.
