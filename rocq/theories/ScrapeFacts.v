(** * ScrapeFacts: the scraping job in every history *)

From Verif Require Import Base BMap MultiKeyMap MultiKeyMapFacts Bytes Types Amount ArithFacts Tx CallData
  Network Hex Transactions State Audit Ranges RangesFacts Rlp Parser Memo Driver Sys SysSpec WtInv StateEquiv
  Segments Tasks SysFacts CoreInv LogFacts GuardSpec Guards GuardFacts Views ParserSpec ParserFacts ScrapeSpec.

Lemma in_order_tiles a b l : in_order a b l <-> tiles a b l.
Proof.
  revert a. induction l as [|[s e] l IH]; intros a; cbn; [tauto|]. rewrite IH. tauto.
Qed.

(** ** One job *)

(** A job between the last scraped block and its target *)
Record job_ok (last target : N) (j : ScrapeJob) : Prop := {
  jo_start : fst (sj_current j) = last + 1;
  jo_some : fst (sj_current j) <= snd (sj_current j);
  jo_target : target < U256_MAX;
  jo_rest : exists e, tiles (last + 1) e (sj_current j :: sj_subranges j) /\ e - last <= MAX_BLOCK_SPREAD /\
    ck_size (sj_chunks j) = MAX_BLOCK_SPREAD /\ snd (ck_range (sj_chunks j)) = target /\
    (ck_exhausted (sj_chunks j) = true /\ e = target \/
     ck_exhausted (sj_chunks j) = false /\ fst (ck_range (sj_chunks j)) = e + 1 /\ e < target)
}.

Lemma tiles_end a b l : tiles a b l -> a <= b + 1.
Proof.
  revert a. induction l as [|[s e] l IH]; cbn; intros a H; [lia|].
  destruct H as (-> & H1 & H2 & H3). lia.
Qed.
Lemma jo_below last target j : job_ok last target j -> snd (sj_current j) <= target.
Proof.
  intros [H1 H2 H3 (e & Ht & _ & _ & _ & H)]. destruct (sj_current j) as [a b]. cbn in *.
  destruct Ht as (_ & _ & Hb & _). lia.
Qed.

Lemma chunk_job a tp last target c c' nx ck :
  ck_size ck = MAX_BLOCK_SPREAD -> snd (ck_range ck) = target -> target < U256_MAX ->
  (ck_exhausted ck = true \/ ck_exhausted ck = false /\ (fst (ck_range ck) = last + 1 \/ target < fst (ck_range ck))) ->
  scrape_next_chunk a tp ck c = Done (c', nx) ->
  forall j, nx = Await (TScrapeLogs j) -> job_ok last target j.
Proof.
  intros Hs Ht Hm Hc H j ->. unfold scrape_next_chunk in H. apply rbind_done in H as ([o ck'] & Hn & H).
  destruct o as [r|]; [|unfold end_timer in H; discriminate]. injection H as _ <-.
  destruct Hc as [Hc|[Hc Hf]].
  { unfold chunks_next in Hn. rewrite Hc in Hn. discriminate. }
  destruct ck as [[s e] sz ex]. cbn [ck_size ck_range ck_exhausted fst snd] in *. subst sz ex e.
  destruct (N.ltb_spec target s) as [Hlt|Hge].
  { unfold chunks_next in Hn. cbn [ck_exhausted ck_range fst snd] in Hn.
    destruct (N.ltb_spec target s); [discriminate|lia]. }
  destruct Hf as [->|Hf]; [|lia].
  destruct (chunks_next_spec (last + 1) target MAX_BLOCK_SPREAD) as (e' & E1 & E2 & E3 & E4);
    [lia|lia|reflexivity|]. rewrite E4 in Hn. injection Hn as <- <-. constructor; cbn; try lia.
  exists e'. split; [lia|]. split; [lia|].
  destruct (N.eqb_spec e' target); cbn; repeat split; auto. right. lia.
Qed.

Lemma block_job n o c c' nx :
  (forall v, last_observed_block_number (fst c) = Some v -> v < U256_MAX) ->
  (forall x, o = Some x -> x < U256_MAX) ->
  scrape_block_reply n o c = Done (c', nx) ->
  forall j, nx = Await (TScrapeLogs j) -> exists target,
    last_observed_block_number (fst c') = Some target /\ job_ok (last_scraped_block_number (fst c')) target j.
Proof.
  intros Hv Ho H j Hj. unfold scrape_block_reply in H.
  set (c1 := match o with
             | Some number => (set_last_observed_block_number
                 (observed_block (evm_network (fst c)) number) (fst c), snd c)
             | None => c end) in H.
  assert (H1 : forall v, last_observed_block_number (fst c1) = Some v -> v < U256_MAX).
  { subst c1. destruct o as [x|]; auto. cbn. intros v. unfold observed_block. specialize (Ho x eq_refl).
    destruct (safety_margin _); [intros E; apply checked_sub_some in E; lia|congruence]. }
  assert (H2 : last_scraped_block_number (fst c1) = last_scraped_block_number (fst c)) by (subst c1; destruct o; auto).
  destruct (last_observed_block_number (fst c1)) as [last|] eqn:El.
  - unfold scrape_until_block in H. apply rbind_done in H as (sc & Hs & H).
    apply rbind_done in H as (ck & Hk & H). subst nx.
    pose proof (scrape_next_chunk_inv _ _ _ _ _ _ H) as [[_ Hd]|[-> _]]; [discriminate|].
    exists last. split; [exact El|].
    assert (Hsc : sc_last_scraped_block_number sc = last_scraped_block_number (fst c)).
    { rewrite <- H2. unfold next_scrape in Hs. inv_res. reflexivity. }
    unfold into_chunks in Hk. inv_res. rewrite H2. eapply chunk_job; [| | | |exact H|reflexivity]; auto.
    right. split; auto. cbn. rewrite Hsc. unfold checked_increment, checked_add.
    destruct (N.leb_spec (last_scraped_block_number (fst c) + 1) U256_MAX); cbn [or_max]; auto.
  - subst nx. destruct (MAX_ATTEMPTS <=? n + 1); [unfold end_timer in H|]; discriminate.
Qed.

Lemma split_job last e s t q q' :
  t < U256_MAX -> s <> t -> tiles (last + 1) e ((s, t) :: q) -> split_queue (s, t) q = Done q' ->
  tiles (last + 1) e q' /\ exists m r, q' = (last + 1, m) :: r /\ m - s < t - s /\ (m + 1 - s) = (t - s) / 2 + 1.
Proof.
  intros Hm Hne Ht H. unfold split_queue in H. rewrite halves_spec in H by lia. cbn [tiles] in Ht.
  destruct Ht as (-> & H1 & H2 & H3). destruct (N.leb_spec t (last + 1)); [lia|]. cbn [rbind] in H.
  pose proof (N.div_lt (t - (last + 1)) 2 ltac:(lia) ltac:(lia)) as Hd.
  set (m := last + 1 + (t - (last + 1)) / 2) in *. injection H as <-.
  split; [|do 2 eexists; split; [reflexivity|]; subst m; lia].
  destruct q as [|[a b] q]; cbn [tiles] in *.
  - repeat split; subst m; lia.
  - destruct H3 as (-> & H3 & H4 & H5). unfold join_with; cbn [fst snd].
    replace (N.min (m + 1) (t + 1)) with (m + 1) by (subst m; lia).
    replace (N.max t b) with b by lia. repeat split; auto; subst m; lia.
Qed.

(** A callback of the job *)
Lemma logs_job now last target j a c c' nx :
  job_ok last target j -> scrape_logs_reply now j a c = Done (c', nx) ->
  forall j', nx = Await (TScrapeLogs j') ->
    job_ok (if settles (sj_current j, a) then snd (sj_current j) else last) target j'.
Proof.
  intros [J1 J2 J3 (e & J4 & J5 & J6 & J7 & J8)] H j' Hj. unfold scrape_logs_reply in H.
  destruct (sj_current j) as [s t] eqn:Ec. cbn [fst snd] in *.
  assert (Hnext : forall c1, scrape_next j (sj_subranges j) c1 = Done (c', nx) -> job_ok t target j').
  { intros c1 Hn. unfold scrape_next in Hn. cbn [tiles] in J4. destruct J4 as (-> & T1 & T2 & T3).
    destruct (sj_subranges j) as [|[a1 b1] q] eqn:Eq.
    - cbn in T3. eapply chunk_job; [exact J6|exact J7|exact J3| |exact Hn|exact Hj].
      destruct J8 as [[? ?]|[? [? ?]]]; [left; auto|right; split; auto; lia].
    - rewrite Hj in Hn. injection Hn as _ <-. cbn [tiles] in T3. destruct T3 as (-> & T3 & T4 & T5).
      constructor; cbn; auto; try lia. exists e. cbn. repeat split; auto; lia. }
  destruct a as [logs| |]; cbn [settles fst snd].
  - apply rbind_done in H as ([ds es] & _ & H). apply rbind_done in H as (c1 & _ & H). eauto.
  - destruct (N.eqb_spec s t) as [He|He].
    + apply rbind_done in H as (c1 & _ & H). eauto.
    + apply rbind_done in H as (q & Hq & H). subst nx.
      assert (Hlt : t < U256_MAX). { cbn [tiles] in J4. lia. }
      apply split_job with (last := last) (e := e) in Hq as (Hq & m & r & -> & Hm & _); auto.
      cbn in H. injection H as _ <-. cbn [tiles] in Hq. constructor; cbn; auto; try lia.
      exists e. cbn. tauto.
  - subst nx. unfold end_timer in H. discriminate.
Qed.

(** ** Histories *)

Definition scraping (t : Task) : bool := match t with TScrapeBlock _ | TScrapeLogs _ => true | _ => false end.

Record scr_ok (s : Sys) : Prop := {
  so_number : forall v, last_observed_block_number (sys_state s) = Some v -> v < U256_MAX;
  so_reply : forall id t n, bget id (sys_tasks s) = Some {| fl_task := t; fl_reply := Some (ReBlock (Some n)) |} ->
    n < U256_MAX;
  so_job : forall id j r, bget id (sys_tasks s) = Some {| fl_task := TScrapeLogs j; fl_reply := r |} ->
    exists target, last_observed_block_number (sys_state s) = Some target /\
      job_ok (last_scraped_block_number (sys_state s)) target j
}.

Section Reach.
Variable self : Principal.
Variable keccak : list N -> Hash.

Definition one_scraper (s : Sys) : Prop := forall i j ti tj ri rj,
  bget i (sys_tasks s) = Some {| fl_task := ti; fl_reply := ri |} ->
  bget j (sys_tasks s) = Some {| fl_task := tj; fl_reply := rj |} ->
  scraping ti = true -> scraping tj = true -> i = j.

Lemma one_scraper_reach (env : Sys -> Label -> Prop) s : reach self keccak env s -> one_scraper s /\ ids_ok s.
Proof.
  intros Hr. split; [|eapply ids_reach; eauto]. intros i j ti tj ri rj Hi Hj Si Sj.
  apply guards_reach in Hr. destruct Hr as [[_ G] _ _ _].
  apply (G TaskScrapLogs).
  - exists {| fl_task := ti; fl_reply := ri |}. split; auto. destruct ti; try discriminate; left; reflexivity.
  - exists {| fl_task := tj; fl_reply := rj |}. split; auto. destruct tj; try discriminate; left; reflexivity.
Qed.

Lemma timer_no_logs now k c c' j : timer_start now k c = Done (c', Await (TScrapeLogs j)) -> False.
Proof. intros H. apply timer_after in H. exact H. Qed.
Lemma call_no_logs now u c c' t : call_start now u c = Done (c', Await t) -> scraping t = false.
Proof.
  intros H. apply (call_taken keccak) in H as (_ & _ & H). destruct (H t eq_refl) as (p & _ & E).
  destruct t; cbn in E; try discriminate; auto.
Qed.
Lemma resume_logs now t r c c' t' : resume keccak now t r c = Done (c', Await t') ->
  scraping t' = true -> scraping t = true.
Proof.
  intros H E'. apply resume_moves in H. destruct H as [_ H _ _ _ _]. cbn in H.
  assert (Hi : In TaskScrapLogs (task_timers t)).
  { apply H. destruct t'; try discriminate; left; reflexivity. }
  destruct t; cbn in Hi; intuition discriminate.
Qed.

(** The parts a step of another task leaves alone *)
Lemma resumed_other now t r v v' : resumed now t r v v' -> scraping t = false ->
  v_number v' = v_number v /\ v_scraped v' = v_scraped v /\ v_network v' = v_network v.
Proof.
  destruct t; cbn; intros H Hs; try discriminate; try (subst; auto; fail);
  destruct r; subst; auto; destruct r; subst; auto; destruct (estimate_transaction_fee _ _); subst; auto.
Qed.

(** The jobs of [s'] are jobs of [s] *)
Lemma scr_same s s' : scr_ok s ->
  last_observed_block_number (sys_state s') = last_observed_block_number (sys_state s) ->
  last_scraped_block_number (sys_state s') = last_scraped_block_number (sys_state s) ->
  (forall id t n, bget id (sys_tasks s') = Some {| fl_task := t; fl_reply := Some (ReBlock (Some n)) |} ->
     n < U256_MAX) ->
  (forall id j r, bget id (sys_tasks s') = Some {| fl_task := TScrapeLogs j; fl_reply := r |} ->
     exists i r', bget i (sys_tasks s) = Some {| fl_task := TScrapeLogs j; fl_reply := r' |}) ->
  scr_ok s'.
Proof.
  intros [H1 H2 H3] E1 E2 H4 H5. constructor; auto.
  - rewrite E1. auto.
  - intros id j r H. apply H5 in H as (i & r' & H). rewrite E1, E2. eauto.
Qed.

Lemma scr_resume now t r c c' nx :
  (forall v, last_observed_block_number (fst c) = Some v -> v < U256_MAX) ->
  (forall x, r = ReBlock (Some x) -> x < U256_MAX) ->
  (forall j, t = TScrapeLogs j -> exists target, last_observed_block_number (fst c) = Some target /\
      job_ok (last_scraped_block_number (fst c)) target j) ->
  resume keccak now t r c = Done (c', nx) -> scraping t = true ->
  (forall v, last_observed_block_number (fst c') = Some v -> v < U256_MAX) /\
  (forall j, nx = Await (TScrapeLogs j) -> exists target, last_observed_block_number (fst c') = Some target /\
      job_ok (last_scraped_block_number (fst c')) target j).
Proof.
  intros Hv Hx Hj H Ht. pose proof (resume_view keccak _ _ _ _ _ _ H) as V.
  destruct t; try discriminate; destruct r; try discriminate; cbn [resume] in H; cbn [resumed] in V.
  - split; [|eapply (block_job attempts r c c' nx); [exact Hv|intros x ->; auto|exact H]].
    intros v E. destruct r as [x|].
    + apply (f_equal v_number) in V. cbn in V. rewrite E in V. unfold observed_block in V.
      specialize (Hx x eq_refl). destruct (safety_margin _); [symmetry in V; apply checked_sub_some in V; lia|].
      injection V as ->. auto.
    + apply (f_equal v_number) in V. cbn in V. rewrite E in V. auto.
  - destruct (Hj j eq_refl) as (target & E & J).
    assert (Vn : last_observed_block_number (fst c') = last_observed_block_number (fst c)).
    { destruct r; [| |apply (f_equal v_number) in V; exact V].
      - apply (f_equal v_number) in V; exact V.
      - destruct (_ =? _); apply (f_equal v_number) in V; exact V. }
    split; [rewrite Vn; auto|]. intros j' Hn. exists target. split; [congruence|].
    eapply logs_job in H; eauto.
    replace (last_scraped_block_number (fst c')) with
      (if settles (sj_current j, r) then snd (sj_current j) else last_scraped_block_number (fst c)); auto.
    unfold settles; cbn [fst snd].
    destruct r; [| |apply (f_equal v_scraped) in V; exact (eq_sym V)].
    + apply (f_equal v_scraped) in V; exact (eq_sym V).
    + destruct (_ =? _); apply (f_equal v_scraped) in V; exact (eq_sym V).
Qed.

Lemma vw_number s s' : vw s' = vw s -> last_observed_block_number s' = last_observed_block_number s.
Proof. intros H. apply (f_equal v_number) in H. exact H. Qed.
Lemma vw_scraped s s' : vw s' = vw s -> last_scraped_block_number s' = last_scraped_block_number s.
Proof. intros H. apply (f_equal v_scraped) in H. exact H. Qed.

Lemma scr_trans s l s' : one_scraper s -> ids_ok s -> scr_ok s -> real_blocks s l ->
  Trans self keccak s l s' -> scr_ok s'.
Proof.
  intros Ho Hi Hs He H. pose proof (trans_view keccak self _ _ _ H) as V. destruct H.
  - exact Hs.
  - assert (Hn : forall j, nx <> Await (TScrapeLogs j)) by (intros j ->; eapply timer_no_logs; eauto).
    apply timer_view in H0. apply (scr_same s); auto.
    + unfold sys_state. cbn. rewrite install_core'. apply (f_equal v_number) in H0. cbn in H0 |- *. rewrite H0.
      destruct nx as [[]|]; reflexivity.
    + unfold sys_state. cbn. rewrite install_core'. apply (f_equal v_scraped) in H0. cbn in H0 |- *. rewrite H0.
      destruct nx as [[]|]; reflexivity.
    + intros id t n. cbn. rewrite install_tasks. destruct (keqb id (sys_next s)); [destruct nx; discriminate|].
      cbn. apply (so_reply _ Hs).
    + intros id j r. cbn. rewrite install_tasks. destruct (keqb id (sys_next s)); [|cbn; eauto].
      destruct nx; [|discriminate]. injection 1 as -> <-. edestruct Hn; reflexivity.
  - apply call_view in H0 as V'; [|exact keccak].
    apply (scr_same s); auto.
    + unfold sys_state. cbn. rewrite install_core'. apply vw_number. exact V'.
    + unfold sys_state. cbn. rewrite install_core'. apply vw_scraped. exact V'.
    + intros id t n. cbn. rewrite install_tasks. destruct (keqb id (sys_next s)); [destruct nx; discriminate|].
      cbn. apply (so_reply _ Hs).
    + intros id j r. cbn. rewrite install_tasks. destruct (keqb id (sys_next s)); [|cbn; eauto].
      destruct nx; [|discriminate]. injection 1 as -> <-. apply call_no_logs in H0. discriminate.
  - apply (scr_same s); auto; [apply (so_reply _ Hs)|cbn; eauto].
  - apply (scr_same s); auto; [apply (so_reply _ Hs)|cbn; eauto].
  - apply (scr_same s); auto.
    + intros i t' n. cbn. rewrite bget_insert. destruct (keqb_spec i id); [discriminate|apply (so_reply _ Hs)].
    + intros i j r. cbn. rewrite bget_insert. destruct (keqb_spec i id); [injection 1 as -> <-|]; eauto.
  - apply (scr_same s); auto.
    + intros i t' n. cbn. rewrite bget_insert. destruct (keqb_spec i id); [|apply (so_reply _ Hs)].
      injection 1 as -> ->. exact He.
    + intros i j r'. cbn. rewrite bget_insert. destruct (keqb_spec i id); [injection 1 as -> <-|]; eauto.
  - destruct (scraping t) eqn:Et.
    + apply scr_resume in H1 as (R1 & R2); auto;
        [|apply (so_number _ Hs)|intros x ->; eapply (so_reply _ Hs); eauto|
          intros j ->; eapply (so_job _ Hs); eauto].
      assert (Hoth : forall i t' r', i <> id -> bget i (sys_tasks s) = Some {| fl_task := t'; fl_reply := r' |} ->
        scraping t' = false).
      { intros i t' r' Hne Hg. destruct (scraping t') eqn:E; auto. edestruct Hne. eapply Ho; eauto. }
      constructor.
      * unfold sys_state. rewrite install_core'. exact R1.
      * intros i t' n. rewrite install_tasks. destruct (keqb i id); [destruct nx; discriminate|]. apply (so_reply _ Hs).
      * intros i j r'. unfold sys_state. rewrite install_tasks, install_core'. destruct (keqb_spec i id) as [E|E].
        -- destruct nx; [|discriminate]. injection 1 as -> <-. apply R2. reflexivity.
        -- intros Hg. apply Hoth in Hg; auto. discriminate.
    + pose proof (resume_view keccak _ _ _ _ _ _ H1) as R. apply resumed_other in R as (R1 & R2 & _); auto.
      apply (scr_same s); auto.
      * unfold sys_state. rewrite install_core'. exact R1.
      * unfold sys_state. rewrite install_core'. exact R2.
      * intros i t' n. rewrite install_tasks. destruct (keqb i id); [destruct nx; discriminate|]. apply (so_reply _ Hs).
      * intros i j r'. rewrite install_tasks. destruct (keqb_spec i id) as [E|E]; [|cbn; eauto].
        destruct nx; [|discriminate]. injection 1 as -> <-. apply resume_logs in H1; [congruence|reflexivity].
  - apply cleanup_view in H2. apply (scr_same s); auto.
    + unfold sys_state. rewrite install_core'. apply vw_number. exact H2.
    + unfold sys_state. rewrite install_core'. apply vw_scraped. exact H2.
    + intros i t' n. rewrite install_tasks. destruct (keqb i id); [discriminate|apply (so_reply _ Hs)].
    + intros i j r'. rewrite install_tasks. destruct (keqb i id); [discriminate|cbn; eauto].
  - apply upgrade_view in H1 as (U & _). constructor.
    + unfold sys_state. cbn. rewrite U. discriminate.
    + cbn. rewrite H0. discriminate.
    + cbn. rewrite H0. discriminate.
Qed.

Lemma scr_reach (env : Sys -> Label -> Prop) s : (forall s l, env s l -> real_blocks s l) ->
  reach self keccak env s -> scr_ok s.
Proof.
  intros He. apply (reach_inv2 self keccak env (fun s => one_scraper s /\ ids_ok s) scr_ok).
  - apply one_scraper_reach.
  - intros now a s0 H. apply sys_init_inv in H as (st & Hi & Hcore & Ht & _).
    constructor; unfold sys_state; rewrite ?Ht, ?Hcore; try discriminate. cbn [fst].
    apply state_of_init_volatile in Hi as (V & _). rewrite V. discriminate.
  - intros s0 l s' [K1 K2] _ Hs Hl Htr. eapply scr_trans; eauto.
Qed.

(** ** C10 *)

Lemma position_step s l s' : scr_ok s -> position_kept s l -> Trans self keccak s l s' ->
  last_scraped_block_number (sys_state s) <= last_scraped_block_number (sys_state s').
Proof.
  intros Hs Hp H. apply (trans_view keccak self) in H. destruct H.
  - apply vw_scraped in H. rewrite H. lia.
  - apply (f_equal v_scraped) in H1. cbn in H1. rewrite H1. lia.
  - destruct (scraping t) eqn:Et.
    + destruct t; try discriminate; destruct r; cbn [resumed] in H2.
      all: try (apply vw_scraped in H2; rewrite H2; lia).
      * destruct r; [|apply vw_scraped in H2; rewrite H2; lia].
        apply (f_equal v_scraped) in H2. cbn in H2. rewrite H2. lia.
      * destruct (so_job _ Hs _ _ _ H1) as (target & _ & [J1 J2 _ _]).
        destruct r; [| |apply vw_scraped in H2; rewrite H2; lia].
        -- apply (f_equal v_scraped) in H2. cbn in H2. rewrite H2. lia.
        -- destruct (_ =? _); apply (f_equal v_scraped) in H2; cbn in H2; rewrite H2; lia.
    + apply resumed_other in H2 as (_ & H2 & _); auto. cbn in H2. rewrite H2. lia.
  - destruct H0 as (_ & _ & _ & H0). rewrite H0. destruct a as [a|]; [|lia]. cbn in Hp. rewrite Hp. cbn. lia.
Qed.

(** ** C07 *)

Lemma install_queries id nx s : sys_queries (install id nx s) = sys_queries s.
Proof. destruct nx; reflexivity. Qed.

Lemma trans_queries s l s' : position_kept s l -> Trans self keccak s l s' ->
  sys_queries s' = sys_queries s /\
    last_scraped_block_number (sys_state s') = last_scraped_block_number (sys_state s) \/
  exists id now j a c nx, l = LDeliver id false now /\
    bget id (sys_tasks s) = Some {| fl_task := TScrapeLogs j; fl_reply := Some (ReLogs a) |} /\
    scrape_logs_reply now j a (sys_core s) = Done (c, nx) /\ sys_core s' = c /\
    sys_queries s' = sys_queries s ++ [(sj_current j, a)].
Proof.
  intros Hp. unfold sys_state. destruct 1; cbn [bump_next sys_queries sys_core]; rewrite ?install_queries, ?install_core';
    cbn [with_core with_call with_queries with_outcome with_op with_tasks sys_queries sys_core]; auto.
  - left. split; auto. apply timer_view in H0. apply (f_equal v_scraped) in H0. cbn in H0. rewrite H0.
    destruct nx as [[]|]; reflexivity.
  - left. split; auto. apply call_view in H0; [|exact keccak]. apply vw_scraped; auto.
  - destruct (match t with TScrapeLogs _ => true | _ => false end) eqn:Et.
    + destruct t; try discriminate. destruct r; try discriminate. right. exists id, now, j, r, c, nx.
      repeat split; auto.
    + left. split; [destruct t; try discriminate; apply app_nil_r|]. apply resume_view in H1.
      destruct (scraping t) eqn:Es; [|apply resumed_other in H1 as (_ & H1 & _); auto].
      destruct t; try discriminate. destruct r; cbn [resumed] in H1; try (apply vw_scraped; exact H1).
      destruct r; [|apply vw_scraped; exact H1]. apply (f_equal v_scraped) in H1. exact H1.
  - left. split; auto. apply cleanup_view in H2. apply vw_scraped; auto.
  - left. split; auto. apply upgrade_view in H1 as (_ & _ & _ & H1). rewrite H1.
    destruct a as [a|]; auto. cbn in Hp. rewrite Hp. reflexivity.
Qed.

Lemma in_events now es : forall c c', process_events now es c = Done c' ->
  forall e, In e es -> In e (map ev_payload (snd c')).
Proof.
  unfold process_events.
  assert (Hg : forall es c c', rfold (fun x y => process_event now y x) c es = Done c' ->
     exists l, snd c' = snd c ++ l).
  { induction es0 as [|e0 es0 IH]; cbn; intros c c' H; inv_res; [exists []; symmetry; apply app_nil_r|].
    apply IH in H as (l & ->). apply process_event_inv in H0 as (s1 & _ & ->). cbn.
    unfold record_event. rewrite <- app_assoc. eauto. }
  induction es as [|e0 es IH]; cbn; intros c c' H e; [tauto|].
  apply rbind_done in H as (c1 & H0 & H). intros [<-|Hi]; [|eapply IH; eauto].
  apply Hg in H as (l & ->). apply process_event_inv in H0 as (s1 & _ & ->). cbn. unfold record_event.
  rewrite !map_app. cbn. rewrite !in_app_iff. cbn. auto.
Qed.
Lemma scrape_next_log j q c c' nx : scrape_next j q c = Done (c', nx) -> snd c' = snd c.
Proof. intros H. apply scrape_next_inv in H as [[-> _]|[-> _]]; reflexivity. Qed.

Lemma logs_recorded now j a c c' nx : scrape_logs_reply now j a c = Done (c', nx) ->
  settles (sj_current j, a) = true -> recorded (snd c') (sj_current j, a).
Proof.
  unfold scrape_logs_reply, settles, recorded. destruct (sj_current j) as [f t]. cbn [fst snd].
  destruct a as [logs| |]; intros H Hs; [| |discriminate].
  - apply rbind_done in H as ([ds es] & Hp & H). apply rbind_done in H as (c1 & H1 & H).
    apply scrape_next_log in H. rewrite H. cbn [on_state snd]. pose proof (in_events _ _ _ _ H1) as Hin.
    destruct (parse_all_spec _ _ _ Hp) as (P1 & P2 & _). intros x Hx. unfold register_events in Hin. split.
    + intros d Hd. apply Hin. apply in_or_app. left. apply in_map. apply P1. eauto.
    + intros src e He. exists (error_text e). apply Hin. apply in_or_app. right. apply in_flat_map.
      exists (InvalidEventSource src e). split; [apply P2; eauto|left; reflexivity].
  - rewrite Hs in H. apply rbind_done in H as (c1 & H1 & H). apply scrape_next_log in H. rewrite H.
    cbn [on_state snd]. apply process_event_inv in H1 as (s1 & _ & ->). cbn. unfold record_event.
    rewrite map_app. apply in_or_app. right. left. reflexivity.
Qed.
Lemma recorded_grows a b q : grows a b -> recorded a q -> recorded b q.
Proof.
  intros (l & -> & _). unfold recorded. destruct (snd q); auto.
  - intros H x Hx. destruct (H x Hx) as [H1 H2]. rewrite map_app. split.
    + intros d Hd. apply in_or_app. auto.
    + intros src e He. destruct (H2 _ _ He) as (t & Ht). exists t. apply in_or_app. auto.
  - rewrite map_app, in_app_iff. auto.
Qed.

Lemma settle_step s l s' : scr_ok s -> position_kept s l -> Trans self keccak s l s' ->
  exists qs, sys_queries s' = sys_queries s ++ qs /\
    tiles (last_scraped_block_number (sys_state s) + 1) (last_scraped_block_number (sys_state s')) (settled qs) /\
    (forall q, In q qs -> settles q = true -> recorded (sys_log s') q) /\
    forall q, In q qs -> last_scraped_block_number (sys_state s) < fst (fst q) /\ fst (fst q) <= snd (fst q) /\
      exists target, last_observed_block_number (sys_state s) = Some target /\ snd (fst q) <= target.
Proof.
  intros Hs Hp H. destruct (trans_queries _ _ _ Hp H) as [[Q E]|(id & now & j & a & c & nx & -> & Hb & Hr & Hc & Q)].
  - exists []. rewrite app_nil_r. split; [auto|]. split; [cbn; lia|cbn; tauto].
  - destruct (so_job _ Hs _ _ _ Hb) as (target & Ho & J). exists [(sj_current j, a)]. split; [exact Q|].
    assert (E : last_scraped_block_number (sys_state s') =
      if settles (sj_current j, a) then snd (sj_current j) else last_scraped_block_number (sys_state s)).
    { assert (R : resume keccak now (TScrapeLogs j) (ReLogs a) (sys_core s) = Done (c, nx)) by exact Hr.
      apply resume_view in R. cbn [resumed] in R. unfold sys_state. rewrite Hc. unfold settles. cbn [fst snd].
      destruct a; [| |apply vw_scraped; exact R].
      - apply (f_equal v_scraped) in R. exact R.
      - destruct (_ =? _); apply (f_equal v_scraped) in R; exact R. }
    pose proof (jo_below _ _ _ J) as Hb'. destruct J as [J1 J2 _ _]. split; [|split].
    + unfold settled. cbn [filter]. rewrite E. destruct (settles _); cbn [map fst tiles]; [|lia].
      destruct (sj_current j) as [f t]. cbn in *. lia.
    + intros q [<-|[]] Hq. unfold sys_log. rewrite Hc. eapply logs_recorded; eauto.
    + intros q [<-|[]]. cbn [fst snd]. split; [lia|]. split; [lia|]. eauto.
Qed.

(** Continuations *)
Lemma run_snoc s ls l : run self keccak s (ls ++ [l]) = step self keccak (run self keccak s ls) l.
Proof. unfold run. rewrite fold_left_app. reflexivity. Qed.
Lemma along_snoc (env : Sys -> Label -> Prop) s ls l : all_along env self keccak s (ls ++ [l]) ->
  all_along env self keccak s ls /\ env (run self keccak s ls) l.
Proof.
  intros H. split.
  - intros l1 x l2 ->. apply (H l1 x (l2 ++ [l])). rewrite <- app_assoc. reflexivity.
  - apply (H ls l []). reflexivity.
Qed.
Lemma along_reach (env : Sys -> Label -> Prop) s ls : reach self keccak env s ->
  all_along env self keccak s ls -> reach self keccak env (run self keccak s ls).
Proof.
  intros Hr. induction ls as [|l ls IH] using rev_ind; intros H; [exact Hr|].
  apply along_snoc in H as (H1 & H2). rewrite run_snoc. apply reach_step; auto.
Qed.
Lemma settled_app a b : settled (a ++ b) = settled a ++ settled b.
Proof. unfold settled. rewrite filter_app, map_app. reflexivity. Qed.

Lemma settle_run s ls : reach self keccak real_blocks s -> all_along kept_blocks self keccak s ls ->
  exists qs, sys_queries (run self keccak s ls) = sys_queries s ++ qs /\
    tiles (last_scraped_block_number (sys_state s) + 1)
      (last_scraped_block_number (sys_state (run self keccak s ls))) (settled qs) /\
    (forall q, In q qs -> settles q = true -> recorded (sys_log (run self keccak s ls)) q) /\
    last_scraped_block_number (sys_state s) <= last_scraped_block_number (sys_state (run self keccak s ls)).
Proof.
  intros Hr. induction ls as [|l ls IH] using rev_ind; intros H.
  - exists []. rewrite app_nil_r. cbn. repeat split; try tauto; lia.
  - apply along_snoc in H as (H1 & H2). destruct (IH H1) as (qs & Q1 & Q2 & Q3 & Q4). rewrite run_snoc.
    set (s1 := run self keccak s ls) in *.
    assert (Hs1 : scr_ok s1).
    { apply (scr_reach real_blocks); auto. apply along_reach; auto. intros l1 x l2 E. apply (H1 l1 x l2 E). }
    destruct H2 as [H2 H2'].
    destruct (settle_step s1 l (step self keccak s1 l) Hs1 H2' (step_trans self keccak s1 l))
      as (qs' & P1 & P2 & P3 & _).
    pose proof (position_step s1 l _ Hs1 H2' (step_trans self keccak s1 l)) as Hp.
    exists (qs ++ qs'). split; [rewrite P1, Q1, app_assoc; reflexivity|]. split; [|split].
    + rewrite settled_app. eapply tiles_app; eauto.
    + intros q Hq Hs. apply in_app_or in Hq as [Hq|Hq]; auto.
      eapply recorded_grows; [|apply Q3; auto]. apply step_grows.
    + lia.
Qed.

(** When a job ends without an error, it has reached its target *)
Lemma logs_finish now last target j a c c' o : job_ok last target j ->
  scrape_logs_reply now j a c = Done (c', Finish o) ->
  a = LogsErr \/ settles (sj_current j, a) = true /\ snd (sj_current j) = target.
Proof.
  intros [J1 J2 J3 (e & J4 & J5 & J6 & J7 & J8)] H. unfold scrape_logs_reply in H. unfold settles.
  destruct (sj_current j) as [s t] eqn:Ec. cbn [fst snd] in *.
  assert (Hnext : forall c1, scrape_next j (sj_subranges j) c1 = Done (c', Finish o) -> t = target).
  { intros c1 Hn. unfold scrape_next in Hn. cbn [tiles] in J4. destruct J4 as (-> & T1 & T2 & T3).
    destruct (sj_subranges j) as [|[a1 b1] q] eqn:Eq; [|discriminate]. cbn in T3.
    destruct J8 as [[? ?]|[? [? ?]]]; [lia|]. exfalso. unfold scrape_next_chunk in Hn.
    destruct (sj_chunks j) as [[s2 e2] sz ex]. cbn [ck_size ck_range ck_exhausted fst snd] in *. subst.
    destruct (chunks_next_spec (e + 1) target MAX_BLOCK_SPREAD) as (e' & E1 & E2 & E3 & E4);
      [lia|lia|reflexivity|]. rewrite E4 in Hn. discriminate. }
  destruct a as [logs| |]; auto.
  - right. apply rbind_done in H as ([ds es] & _ & H). apply rbind_done in H as (c1 & _ & H). eauto.
  - right. destruct (N.eqb_spec s t) as [He|He].
    + apply rbind_done in H as (c1 & _ & H). eauto.
    + apply rbind_done in H as (q & Hq & H). exfalso.
      assert (Hlt : t < U256_MAX). { cbn [tiles] in J4. lia. }
      apply split_job with (last := last) (e := e) in Hq as (Hq & m & r & -> & Hm & _); auto. discriminate.
Qed.

Lemma finish_target now last target j a c c' o : job_ok last target j ->
  resume keccak now (TScrapeLogs j) (ReLogs a) c = Done (c', Finish o) ->
  a = LogsErr \/ last_scraped_block_number (fst c') = target.
Proof.
  intros J H. pose proof (resume_view keccak _ _ _ _ _ _ H) as V. cbn [resume] in H.
  destruct (logs_finish _ _ _ _ _ _ _ _ J H) as [E|[E1 E2]]; [auto|]. right. unfold settles in E1. cbn [snd fst] in E1.
  cbn [resumed] in V. destruct a; [|rewrite E1 in V|discriminate].
  all: apply (f_equal v_scraped) in V; cbn in V; congruence.
Qed.
Lemma follows_block n t' : follows keccak (TScrapeBlock n) t' ->
  (exists j, t' = TScrapeLogs j) \/ t' = TScrapeBlock (n + 1) /\ n + 1 < 3.
Proof.
  intros (now & r & c & c' & H). cbn [resume] in H. destruct r; try discriminate. unfold scrape_block_reply in H.
  set (c1 := match r with Some _ => _ | None => _ end) in H. cbv zeta in H.
  destruct (last_observed_block_number (fst c1)) as [v|].
  - left. unfold scrape_until_block, scrape_next_chunk in H. inv_res. destruct x1 as [[y|] ck]; [|discriminate].
    injection H as <- <-. eauto.
  - right. destruct (N.leb_spec MAX_ATTEMPTS (n + 1)) as [Hm|Hm]; [discriminate|]. injection H as _ <-. split; auto.
Qed.

(** ** C08 *)

Lemma log2_up_half c : 2 <= c -> N.log2_up ((c - 1) / 2 + 1) + 1 <= N.log2_up c.
Proof.
  intros Hc. assert (Hk : 1 <= N.log2_up c).
  { change 1 with (N.log2_up 2). apply N.log2_up_le_mono. exact Hc. }
  pose proof (N.log2_log2_up_spec c ltac:(lia)) as [_ Hp].
  assert (He : c <= 2 * 2 ^ (N.log2_up c - 1)).
  { rewrite <- N.pow_succ_r'. replace (N.succ (N.log2_up c - 1)) with (N.log2_up c) by lia. exact Hp. }
  assert (Hh : (c - 1) / 2 + 1 <= 2 ^ (N.log2_up c - 1)).
  { assert ((c - 1) / 2 < 2 ^ (N.log2_up c - 1)); [|lia]. apply N.div_lt_upper_bound; lia. }
  apply N.log2_up_le_mono in Hh. rewrite N.log2_up_pow2 in Hh by lia. lia.
Qed.

(** An upper bound of the number of queries, this one included *)
Definition weight (L last target : N) (j : ScrapeJob) : N :=
  (target - last - 1) * (L + 1) + N.log2_up (snd (sj_current j) - last) + 1.

Lemma len_cur last target j : job_ok last target j ->
  1 <= snd (sj_current j) - last /\ snd (sj_current j) - last <= N.min (target - last) MAX_BLOCK_SPREAD /\ last < target.
Proof.
  intros J. pose proof (jo_below _ _ _ J). destruct J as [J1 J2 J3 (e & J4 & J5 & _)].
  destruct (sj_current j) as [s t]. cbn in *. destruct J4 as (_ & _ & ? & _). lia.
Qed.

Lemma weight_pos L last target j : 1 <= weight L last target j.
Proof. unfold weight. rewrite N.add_comm. apply N.le_add_r. Qed.

Lemma weight_decreases L now last target j a c c' j' : job_ok last target j ->
  N.log2_up (N.min (target - last) MAX_BLOCK_SPREAD) <= L ->
  scrape_logs_reply now j a c = Done (c', Await (TScrapeLogs j')) ->
  exists last', job_ok last' target j' /\ last <= last' /\ weight L last' target j' + 1 <= weight L last target j.
Proof.
  intros J HL H. pose proof (logs_job _ _ _ _ _ _ _ _ J H j' eq_refl) as J'.
  set (last' := if settles (sj_current j, a) then snd (sj_current j) else last) in *.
  pose proof (len_cur _ _ _ J) as (C1 & C2 & C3). pose proof (len_cur _ _ _ J') as (C1' & C2' & C3').
  exists last'. split; [exact J'|]. destruct (settles (sj_current j, a)) eqn:Es; subst last'.
  - split; [lia|]. unfold weight.
    assert (Hl : N.log2_up (snd (sj_current j') - snd (sj_current j)) <= L).
    { etransitivity; [|exact HL]. apply N.log2_up_le_mono. lia. }
    assert (Hm : (target - snd (sj_current j) - 1) * (L + 1) + (L + 1) <= (target - last - 1) * (L + 1)).
    { replace ((target - snd (sj_current j) - 1) * (L + 1) + (L + 1))
        with ((target - snd (sj_current j) - 1 + 1) * (L + 1)) by lia.
      apply N.mul_le_mono_r. lia. }
    lia.
  - split; [lia|]. unfold weight. unfold scrape_logs_reply in H. destruct J as [J1 J2 J3 (e & J4 & _)].
    destruct (sj_current j) as [s t] eqn:Ec. cbn [fst snd] in *. unfold settles in Es. cbn [fst snd] in Es.
    destruct a as [logs| |]; [discriminate| |unfold end_timer in H; discriminate].
    rewrite Es in H. apply rbind_done in H as (q & Hq & H). apply N.eqb_neq in Es.
    assert (Hlt : t < U256_MAX). { cbn [tiles] in J4. destruct J4 as (_ & _ & J4 & _). lia. }
    apply split_job with (last := last) (e := e) in Hq as (Hq & m & r & -> & Hm & Hh); auto.
    cbn in H. injection H as _ <-. cbn [sj_current snd]. subst s.
    assert (Hc : 2 <= t - last) by lia. pose proof (log2_up_half _ Hc) as HH.
    replace (m - last) with ((t - last - 1) / 2 + 1); [lia|].
    replace (t - last - 1) with (t - (last + 1)) by lia. lia.
Qed.

Lemma follows_logs j t' : follows keccak (TScrapeLogs j) t' -> exists j', t' = TScrapeLogs j'.
Proof.
  intros (now & r & c & c' & H). apply resume_after in H. cbn [after] in H.
  destruct t'; cbn [next_spec] in H; eauto; exfalso.
  all: repeat match goal with
       | H : exists _, _ |- _ => destruct H
       | H : _ /\ _ |- _ => destruct H
       | H : _ \/ _ |- _ => destruct H
       end; try discriminate; unfold mint_job in *; intuition; try discriminate.
  all: match goal with H : exists _, _ |- _ => destruct H; discriminate end.
Qed.

Lemma chain_weight L k : forall j last target, job_ok last target j ->
  N.log2_up (N.min (target - last) MAX_BLOCK_SPREAD) <= L ->
  chain keccak (TScrapeLogs j) k -> N.of_nat (S k) <= weight L last target j.
Proof.
  induction k as [|k IH]; intros j last target J HL H.
  - pose proof (weight_pos L last target j). lia.
  - inversion H as [|? t' ? F C]; subst. destruct (follows_logs _ _ F) as (j' & ->).
    destruct F as (now & r & c & c' & F). destruct r; try discriminate. cbn [resume] in F.
    destruct (weight_decreases L _ _ _ _ _ _ _ _ J HL F) as (last' & J' & Hl & Hw).
    assert (HL' : N.log2_up (N.min (target - last') MAX_BLOCK_SPREAD) <= L).
    { etransitivity; [|exact HL]. apply N.log2_up_le_mono. lia. }
    specialize (IH _ _ _ J' HL' C). lia.
Qed.

Lemma queries_bound (env : Sys -> Label -> Prop) s id j r k : (forall s l, env s l -> real_blocks s l) -> reach self keccak env s ->
  bget id (sys_tasks s) = Some {| fl_task := TScrapeLogs j; fl_reply := r |} ->
  chain keccak (TScrapeLogs j) k ->
  exists target, last_observed_block_number (sys_state s) = Some target /\
    let n := target - last_scraped_block_number (sys_state s) in
    N.of_nat (S k) <= n * (1 + N.log2_up (N.min n MAX_BLOCK_SPREAD)).
Proof.
  intros He Hr Hb Hc. apply scr_reach in Hr; auto. destruct (so_job _ Hr _ _ _ Hb) as (target & Ho & J).
  exists target. split; auto. cbv zeta. set (L := N.log2_up _). pose proof (len_cur _ _ _ J) as (C1 & C2 & C3).
  pose proof (chain_weight L k j _ target J ltac:(reflexivity) Hc) as H. etransitivity; [exact H|]. unfold weight.
  assert (Hl : N.log2_up (snd (sj_current j) - last_scraped_block_number (sys_state s)) <= L)
    by (apply N.log2_up_le_mono; exact C2).
  set (n := target - last_scraped_block_number (sys_state s)) in *.
  replace (n * (1 + L)) with ((n - 1) * (L + 1) + (L + 1)) by nia. lia.
Qed.

(** ** C11 *)

Lemma observed_margin net n v : observed_block net n = Some v <-> v + head_margin net = n.
Proof.
  unfold observed_block. destruct net; cbn [safety_margin head_margin]; unfold checked_sub.
  all: try (split; [injection 1 as <-; lia|intros <-; f_equal; lia]).
  all: match goal with |- context [if ?b then _ else _] => destruct b eqn:E end.
  all: try apply N.leb_le in E; try apply N.ltb_lt in E; try apply N.leb_gt in E; try apply N.ltb_ge in E.
  all: split; intros H; try discriminate; try (injection H as <-; lia); try (f_equal; lia); exfalso; lia.
Qed.

Lemma rfold_network es : forall s s', rfold (fun s e => apply_state_transition s (ev_payload e)) s es = Done s' ->
  evm_network s' = evm_network s.
Proof.
  induction es as [|e es IH]; cbn; intros s s' H; inv_res; auto. apply IH in H. rewrite H.
  apply apply_same in H0 as ((H0 & _) & _). exact H0.
Qed.
Lemma init_network a s : state_of_init a = ROk s -> evm_network s = ia_evm_network a.
Proof.
  unfold state_of_init, ebind. intros H.
  repeat match type of H with match ?x with _ => _ end = _ => destruct x; try discriminate end.
  injection H as <-. reflexivity.
Qed.
Definition starts (a : InitArg) (log : list Event) : Prop := exists e log', log = e :: log' /\ ev_payload e = EvInit a.
Lemma replay_network a log s : starts a log -> replay_events log = Done s -> evm_network s = ia_evm_network a.
Proof.
  intros (e & log' & -> & He). cbn. rewrite He. destruct (state_of_init a) as [s0|] eqn:E; [|discriminate].
  intros H. apply rfold_network in H. rewrite H. eapply init_network; eauto.
Qed.
Lemma starts_grows a l l' : grows l l' -> starts a l -> starts a l'.
Proof. intros (x & -> & _) (e & log' & -> & He). exists e, (log' ++ x). auto. Qed.
Lemma upgrade_network a now u c c' : starts a (snd c) -> canister_upgrade now u c = Done c' ->
  evm_network (fst c') = ia_evm_network a.
Proof.
  intros Hs H. unfold canister_upgrade, post_upgrade in H. inv_res.
  apply (replay_network a) in H0; [|destruct Hs as (e & log' & E & He); unfold pre_upgrade, record_event; rewrite E;
    exists e; eexists; split; [reflexivity|exact He]].
  destruct u as [u|]; [|inv_res; auto]. apply process_event_inv in H as (s' & H & ->).
  apply apply_same in H as ((H & _) & _). cbn [fst] in *. congruence.
Qed.

Record heads (a : InitArg) (ls : list Label) (s : Sys) : Prop := {
  hd_log : starts a (sys_log s);
  hd_net : evm_network (sys_state s) = ia_evm_network a;
  hd_reply : forall id t n, bget id (sys_tasks s) = Some {| fl_task := t; fl_reply := Some (ReBlock (Some n)) |} ->
    exists i, In (LAnswer i (ReBlock (Some n))) ls;
  hd_number : forall v, last_observed_block_number (sys_state s) = Some v ->
    exists i, In (LAnswer i (ReBlock (Some (v + head_margin (ia_evm_network a))))) ls
}.

Lemma same_tasks_reply s s' (P : N -> Prop) :
  (forall id t n, bget id (sys_tasks s) = Some {| fl_task := t; fl_reply := Some (ReBlock (Some n)) |} -> P n) ->
  (forall id t r, bget id (sys_tasks s') = Some {| fl_task := t; fl_reply := Some r |} ->
     bget id (sys_tasks s) = Some {| fl_task := t; fl_reply := Some r |}) ->
  forall id t n, bget id (sys_tasks s') = Some {| fl_task := t; fl_reply := Some (ReBlock (Some n)) |} -> P n.
Proof. intros H1 H2 id t n H. eapply H1, H2; eauto. Qed.

Lemma trans_network a s l s' : starts a (sys_log s) -> evm_network (sys_state s) = ia_evm_network a ->
  Trans self keccak s l s' -> evm_network (sys_state s') = ia_evm_network a.
Proof.
  intros Hl Hn H. pose proof (trans_view keccak self _ _ _ H) as V. destruct V.
  - apply (f_equal v_network) in H0. cbn in H0. congruence.
  - apply (f_equal v_network) in H2. cbn in H2. congruence.
  - assert (E : v_network (vw (sys_state s')) = v_network (vw (sys_state s))); [|cbn in E; congruence].
    destruct (scraping t) eqn:Et; [|eapply resumed_other; eauto].
    destruct t; try discriminate; destruct r; cbn [resumed] in H3; try (rewrite H3; reflexivity); destruct r; try (rewrite H3; reflexivity).
    destruct (_ =? _); rewrite H3; reflexivity.
  - inversion H; subst; auto. eapply upgrade_network; eauto.
Qed.

Lemma trans_replies s l s' id t r : Trans self keccak s l s' ->
  bget id (sys_tasks s') = Some {| fl_task := t; fl_reply := Some r |} ->
  bget id (sys_tasks s) = Some {| fl_task := t; fl_reply := Some r |} \/ l = LAnswer id r.
Proof.
  destruct 1; cbn [bump_next sys_tasks]; rewrite ?install_tasks; auto.
  - destruct (keqb id (sys_next s)); [destruct nx; discriminate|]. cbn. auto.
  - destruct (keqb id (sys_next s)); [destruct nx; discriminate|]. cbn. auto.
  - cbn. rewrite bget_insert. destruct (keqb_spec id id0); auto. injection 1 as -> <-. subst. auto.
  - cbn. rewrite bget_insert. destruct (keqb_spec id id0); auto. injection 1 as -> <-. subst. auto.
  - destruct (keqb id id0); [destruct nx; discriminate|]. cbn. auto.
  - destruct (keqb id id0); [discriminate|]. cbn. auto.
Qed.

Lemma heads_run now a s0 ls : sys_init now a = Done s0 -> heads a ls (run self keccak s0 ls).
Proof.
  intros Hi. induction ls as [|l ls IH] using rev_ind.
  - apply sys_init_inv in Hi as (st & Hst & Hc & Ht & _). constructor; cbn; unfold sys_log, sys_state; rewrite ?Hc, ?Ht; cbn.
    + exists {| ev_timestamp := now; ev_payload := EvInit a |}, []. split; reflexivity.
    + eapply init_network; eauto.
    + discriminate.
    + apply state_of_init_volatile in Hst as (V & _). rewrite V. discriminate.
  - rewrite run_snoc. set (s := run self keccak s0 ls) in *.
    assert (Hin : forall r, (exists i, In (LAnswer i r) ls) -> exists i, In (LAnswer i r) (ls ++ [l])).
    { intros r (i & H). exists i. apply in_or_app. auto. }
    pose proof (step_trans self keccak s l) as H. set (s' := step self keccak s l) in *.
    destruct IH as [H1 H2 H3 H4]. constructor.
    + eapply starts_grows; [apply step_grows|exact H1].
    + eapply trans_network; eauto.
    + intros id t n Hb. destruct (trans_replies _ _ _ _ _ _ H Hb) as [Hb'|E]; [apply Hin; eauto|].
      exists id. apply in_or_app. right. left. exact E.
    + intros v Hv. pose proof (trans_view keccak self _ _ _ H) as V. destruct V.
      * apply vw_number in H0. rewrite H0 in Hv. auto.
      * apply (f_equal v_number) in H6. cbn in H6. rewrite H6 in Hv. auto.
      * destruct (scraping t) eqn:Et;
          [|apply resumed_other in H7 as (R & _); auto; cbn in R; rewrite R in Hv; auto].
        destruct t; try discriminate; destruct r; cbn [resumed] in H7;
          try (apply vw_number in H7; rewrite H7 in Hv; auto; fail).
        -- destruct r as [n|]; [|apply vw_number in H7; rewrite H7 in Hv; auto].
           apply (f_equal v_number) in H7. cbn in H7. rewrite Hv in H7. symmetry in H7.
           apply observed_margin in H7. rewrite H2 in H7. rewrite H7. apply Hin. eauto.
        -- assert (R : v_number (vw (sys_state s')) = v_number (vw (sys_state s))).
           { destruct r; [| |rewrite H7; reflexivity]; [rewrite H7; reflexivity|].
             destruct (_ =? _); rewrite H7; reflexivity. }
           cbn in R. rewrite R in Hv. auto.
      * destruct H5 as (H5 & _). rewrite H5 in Hv. discriminate.
Qed.

(** Every query stays below the head *)
Lemma queries_below now a s0 ls : sys_init now a = Done s0 -> all_along kept_blocks self keccak s0 ls ->
  forall q, In q (sys_queries (run self keccak s0 ls)) ->
    exists i n, In (LAnswer i (ReBlock (Some n))) ls /\ snd (fst q) + head_margin (ia_evm_network a) <= n.
Proof.
  intros Hi. induction ls as [|l ls IH] using rev_ind; intros H q Hq.
  - cbn in Hq. apply sys_init_inv in Hi as (st & _ & _ & _ & _ & _ & _ & _ & _ & E). rewrite E in Hq. destruct Hq.
  - apply along_snoc in H as (H1 & H2 & H2'). rewrite run_snoc in Hq.
    set (s := run self keccak s0 ls) in *.
    assert (Hs : scr_ok s).
    { apply (scr_reach real_blocks); auto. apply along_reach; [eapply reach_init; eauto|].
      intros l1 x l2 E. apply (H1 l1 x l2 E). }
    destruct (settle_step s l _ Hs H2' (step_trans self keccak s l)) as (qs & Q1 & _ & _ & Q4).
    rewrite Q1 in Hq. apply in_app_or in Hq as [Hq|Hq].
    + destruct (IH H1 q Hq) as (i & n & I1 & I2). exists i, n. split; auto. apply in_or_app; auto.
    + destruct (Q4 q Hq) as (_ & _ & target & Ho & Hle).
      pose proof (heads_run now a s0 ls Hi) as Hh. fold s in Hh. destruct (hd_number _ _ _ Hh target Ho) as (i & I1).
      exists i. eexists. split; [apply in_or_app; left; exact I1|lia].
Qed.

(** ** C12 *)

Lemma minute_after_sat t : u64_saturating_add t ONE_MIN_NS = minute_after t.
Proof.
  unfold minute_after. replace (60 * 10 ^ 9) with ONE_MIN_NS by (vm_compute; reflexivity).
  replace (2 ^ 64 - 1) with U64_MAX by (vm_compute; reflexivity). reflexivity.
Qed.

Lemma request_iff s b now : sys_clock s <= now -> b <= U256_MAX ->
  (request_accepted self keccak s b now <->
   exists n t, last_observed_block_number (sys_state s) = Some n /\ last_observed_block_time (sys_state s) = Some t /\
     n < b /\ minute_after t <= now).
Proof.
  intros Hc Hb. unfold request_accepted, request_answer. cbn [step].
  destruct (N.ltb_spec now (sys_clock s)); [lia|]. cbn [call_start]. unfold start_task, request_scraping_logs, sys_state.
  destruct (last_observed_block_number (fst (sys_core s))) as [n|]; cbn [expect rbind];
    [|split; [intros E; apply app_inv_head in E; discriminate|intros (? & ? & ? & _); discriminate]].
  destruct (last_observed_block_time (fst (sys_core s))) as [t|]; cbn [expect rbind];
    [|split; [intros E; apply app_inv_head in E; discriminate|intros (? & ? & _ & ? & _); discriminate]].
  rewrite amount_of_nat_spec. destruct (N.leb_spec b U256_MAX); [|lia]. unfold validate_log_scraping_request.
  rewrite minute_after_sat. cbn.
  assert (Hi : forall r, sys_outcomes s ++ [(sys_next s, OutScraping r)] = sys_outcomes s ++ [(sys_next s, OutScraping (ROk tt))] ->
     r = ROk tt).
  { intros r E. apply app_inv_head in E. congruence. }
  split.
  - intros E. apply Hi in E. exists n, t. destruct (N.leb_spec b n); [discriminate|].
    destruct (N.ltb_spec now (minute_after t)); [discriminate|]. auto.
  - intros (n' & t' & [= <-] & [= <-] & H1 & H2). destruct (N.leb_spec b n); [lia|].
    destruct (N.ltb_spec now (minute_after t)); [lia|]. reflexivity.
Qed.

(** The observation time never goes back, whatever happens *)
Lemma clock_mono s l : sys_clock s <= sys_clock (step self keccak s l).
Proof.
  pose proof (step_trans self keccak s l) as H. destruct H; cbn; rewrite ?install_clock; cbn; lia.
Qed.
Definition times_after (t : N) (s : Sys) : Prop :=
  t <= sys_clock s /\ forall t', last_observed_block_time (sys_state s) = Some t' -> t <= t' /\ t' <= sys_clock s.
Lemma resumed_time now t r v v' : resumed now t r v v' -> v_time v' = v_time v.
Proof.
  destruct t; cbn; intros H; try (subst; auto; fail); destruct r; subst; auto.
  - destruct r; subst; auto.
  - destruct r; subst; auto. destruct (_ =? _); auto.
  - destruct r; subst; auto; destruct (estimate_transaction_fee _ _); subst; auto.
  - destruct r; subst; auto; destruct (estimate_transaction_fee _ _); subst; auto.
  - destruct r; subst; auto; destruct (estimate_transaction_fee _ _); subst; auto.
Qed.
Lemma times_step t s l : times_after t s -> times_after t (step self keccak s l).
Proof.
  intros [H1 H2]. pose proof (clock_mono s l) as Hc. split; [lia|].
  pose proof (trans_view keccak self _ _ _ (step_trans self keccak s l)) as V. destruct V; intros t' Ht.
  - apply (f_equal v_time) in H. cbn in H. rewrite H in Ht. apply H2 in Ht. lia.
  - apply (f_equal v_time) in H3. cbn in H3. rewrite H3 in Ht. injection Ht as <-. lia.
  - apply resumed_time in H4. cbn in H4. rewrite H4 in Ht. apply H2 in Ht. lia.
  - destruct H0 as (_ & H0 & _). rewrite H0 in Ht. discriminate.
Qed.
Lemma times_run t ls : forall s, times_after t s -> times_after t (run self keccak s ls).
Proof. induction ls as [|l ls IH]; cbn; intros s H; auto. apply IH, times_step, H. Qed.

Lemma times_reach (env : Sys -> Label -> Prop) s : reach self keccak env s ->
  forall t, last_observed_block_time (sys_state s) = Some t -> times_after t s.
Proof.
  intros H. assert (Hw : times_after 0 s).
  { induction H.
    - apply sys_init_inv in H as (st & Hst & Hc & _). split; [lia|]. unfold sys_state. rewrite Hc. cbn [fst].
      apply state_of_init_volatile in Hst as (_ & V & _). rewrite V. discriminate.
    - apply times_step; auto. }
  intros t Ht. destruct Hw as [_ Hw]. split; [apply Hw; auto|]. intros t' Ht'. rewrite Ht in Ht'. injection Ht' as <-.
  specialize (Hw _ Ht). lia.
Qed.

Lemma quiet_minute (env : Sys -> Label -> Prop) s t ls b now : reach self keccak env s ->
  last_observed_block_time (sys_state s) = Some t -> b <= U256_MAX ->
  sys_clock (run self keccak s ls) <= now ->
  request_accepted self keccak (run self keccak s ls) b now -> minute_after t <= now.
Proof.
  intros Hr Ht Hb Hn H. apply request_iff in H as (n & t' & _ & Ht' & _ & Hm); auto.
  apply (times_reach env s Hr) in Ht. apply (times_run t ls) in Ht. destruct Ht as [_ Ht].
  apply Ht in Ht' as [Ht' _]. etransitivity; [|exact Hm]. unfold minute_after. lia.
Qed.

(** A scrape that starts stamps the time *)
Lemma scrape_stamps s now : sys_clock s <= now -> bmem TaskScrapLogs (active_tasks (sys_state s)) = false ->
  last_observed_block_time (sys_state (step self keccak s (LTimer TimerScrape now))) = Some now.
Proof.
  intros Hc Ha. cbn [step]. destruct (N.ltb_spec now (sys_clock s)); [lia|].
  unfold start_task. cbn [timer_start]. unfold scrape_start, timer_guard_new, sys_state in *.
  rewrite Ha. reflexivity.
Qed.
End Reach.
