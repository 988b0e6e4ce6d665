(** * Proofs about the memos on the ledgers (C43, C63). *)

From Verif Require Import Base BMap MultiKeyMap Bytes Types Amount Tx CallData Network Hex
  Transactions State Audit Ranges Rlp Parser Memo Driver Sys SysSpec Cbor CborSpec CborFacts DepositSpec ReimburseSpec BurnSpec
  Deposits MintFacts BurnFacts.

(** The memos of the transfers among the operations of the ledgers, with the ledger *)
Definition mint_memo (o : Op) : list (Principal * MintMemo) :=
  match fst o with Transfer l _ _ (Some (MemoMint m)) => [(l, m)] | _ => [] end.
Definition mint_memos (ops : list Op) : list (Principal * MintMemo) := flat_map mint_memo ops.

Lemma mints_once_tail o ops : (forall src, (List.length (mints_for src (o :: ops)) <= 1)%nat) ->
  forall src, (List.length (mints_for src ops) <= 1)%nat.
Proof.
  intros H src. specialize (H src). unfold mints_for in *. cbn [filter] in H.
  destruct (match mint_source (fst o) with Some x => keqb x src | None => false end); cbn [List.length] in H; lia.
Qed.
Lemma named_once_tail o ops : NoDup (map (fun o => named (fst o)) (reimbursements (o :: ops))) ->
  NoDup (map (fun o => named (fst o)) (reimbursements ops)).
Proof.
  intros H. unfold reimbursements in *. cbn [filter] in H. destruct (is_reimbursement (fst o)); auto.
  cbn [map] in H. inversion H; auto.
Qed.
Lemma mint_memo_in l m o : In (l, m) (mint_memo o) -> exists to v, fst o = Transfer l to v (Some (MemoMint m)).
Proof.
  unfold mint_memo. destruct (fst o) as [l0 to v [[m0|]|]|]; cbn; try tauto. intros [E|[]]. injection E as -> ->. eauto.
Qed.
Lemma memos_in l m ops : In (l, m) (mint_memos ops) -> exists o to v, In o ops /\ fst o = Transfer l to v (Some (MemoMint m)).
Proof.
  unfold mint_memos. intros H. apply in_flat_map in H as (o & Ho & H). apply mint_memo_in in H as (to & v & E). eauto 6.
Qed.
Lemma memos_nodup ops : (forall src, (List.length (mints_for src ops) <= 1)%nat) ->
  NoDup (map (fun o => named (fst o)) (reimbursements ops)) ->
  NoDup (mint_memos ops).
Proof.
  induction ops as [|o ops IH]; intros H1 H2; [constructor|]. unfold mint_memos in *. cbn [flat_map].
  pose proof (IH (mints_once_tail _ _ H1) (named_once_tail _ _ H2)) as Ht.
  destruct (mint_memo o) as [|[l m] r] eqn:E; [exact Ht|].
  assert (r = []). { unfold mint_memo in E. destruct (fst o) as [l0 to v [[m0|]|]|]; try discriminate. injection E as _ _ <-. auto. }
  subst r. assert (Hin : In (l, m) (mint_memo o)) by (rewrite E; left; auto).
  apply mint_memo_in in Hin as (to & v & Eo). cbn [app]. constructor; auto.
  intros Hc. apply memos_in in Hc as (o' & to' & v' & Ho' & Eo').
  destruct m as [a h i|b h|b].
  - specialize (H1 (h, i)). unfold mints_for in H1. cbn [filter] in H1. rewrite Eo in H1. cbn [mint_source] in H1.
    rewrite keqb_refl in H1. cbn [List.length] in H1.
    assert (Hf : In o' (filter (fun o => match mint_source (fst o) with Some x => keqb x (h, i) | None => false end) ops)).
    { apply filter_In. split; auto. rewrite Eo'. cbn. apply keqb_refl. }
    destruct (filter (fun o => match mint_source (fst o) with Some x => keqb x (h, i) | None => false end) ops); [destruct Hf|].
    cbn in H1. lia.
  - unfold reimbursements in H2. cbn [filter] in H2. rewrite Eo in H2. cbn [is_reimbursement] in H2. cbn [map] in H2. rewrite Eo in H2.
    cbn [named] in H2. inversion H2 as [|? ? Hn _]; subst. apply Hn. apply in_map_iff. exists o'. rewrite Eo'. split; [reflexivity|].
    apply filter_In. rewrite Eo'. auto.
  - unfold reimbursements in H2. cbn [filter] in H2. rewrite Eo in H2. cbn [is_reimbursement] in H2. cbn [map] in H2. rewrite Eo in H2.
    cbn [named] in H2. inversion H2 as [|? ? Hn _]; subst. apply Hn. apply in_map_iff. exists o'. rewrite Eo'. split; [reflexivity|].
    apply filter_In. rewrite Eo'. auto.
Qed.
Lemma nodup_map_on {A B} (P : A -> Prop) (f : A -> B) l : (forall x y, P x -> P y -> f x = f y -> x = y) ->
  Forall P l -> NoDup l -> NoDup (map f l).
Proof.
  intros Hf Hl Hn. induction l as [|x l IH]; [constructor|]. inversion Hl; subst. inversion Hn; subst. cbn. constructor; auto.
  intros Hi. apply in_map_iff in Hi as (y & E & Hy). assert (x = y); [|subst; auto].
  apply Hf; auto. rewrite Forall_forall in *. auto.
Qed.

Lemma memos_unique self keccak (env : Sys -> Label -> Prop) s : (forall s l, env s l -> nonce_kept s l) ->
  reach self keccak env s -> Forall (fun x => ok_mint_memo (snd x)) (mint_memos (sys_ops s)) ->
  NoDup (map (fun x => (fst x, mint_memo_bytes (snd x))) (mint_memos (sys_ops s))).
Proof.
  intros He Hr Hok. apply (nodup_map_on (fun x => ok_mint_memo (snd x))); auto.
  - intros [l m] [l' m'] Hm Hm' E. cbn [fst snd] in *. injection E as -> E. f_equal.
    exact (codec_inj_all _ _ _ mint_memo_reads _ _ Hm Hm' E).
  - apply memos_nodup; [|exact (reimbursed_once self keccak env He s Hr)].
    exact (mo_once _ (mints_reach self keccak env s Hr)).
Qed.

(** ** Sizes *)
Lemma head_length major n : (List.length (head major n) <= 9)%nat.
Proof.
  unfold head. destruct (n <? 24); [cbn; lia|]. destruct (n <? 2 ^ 8); [cbn; lia|].
  destruct (n <? 2 ^ 16); [cbn [List.length]; rewrite be_bytes_length; lia|].
  destruct (n <? 2 ^ 32); cbn [List.length]; rewrite be_bytes_length; lia.
Qed.
Lemma head_short major n : n < 24 -> List.length (head major n) = 1%nat.
Proof. intros H. unfold head. rewrite (proj2 (N.ltb_lt _ _)) by auto. reflexivity. Qed.
Lemma head_byte major n : n < 2 ^ 8 -> (List.length (head major n) <= 2)%nat.
Proof. intros H. unfold head. destruct (n <? 24); [cbn; lia|]. rewrite (proj2 (N.ltb_lt n (2 ^ 8))) by auto. cbn. lia. Qed.
Lemma address_size a : List.length (enc_address a) = 21%nat.
Proof. unfold enc_address, enc_bytes. rewrite app_length, be_bytes_length, head_short by reflexivity. reflexivity. Qed.
Lemma hash_size h : (List.length (enc_hash h) <= 34)%nat.
Proof.
  unfold enc_hash, enc_bytes. rewrite app_length, be_bytes_length. pose proof (head_byte 2 (N.of_nat 32) ltac:(reflexivity)). lia.
Qed.
Lemma uint_size n : (List.length (enc_uint n) <= 9)%nat.
Proof. apply head_length. Qed.
Lemma u256_size n : (List.length (enc_u256 n) <= 35)%nat.
Proof.
  unfold enc_u256. pose proof (uint_size n). destruct (n <=? 2 ^ 32 - 1); [lia|]. destruct (n <=? 2 ^ 64 - 1); [lia|].
  unfold enc_bytes. rewrite !app_length, head_short by reflexivity. pose proof (be_min_length n).
  assert (Hb : N.of_nat (List.length (be_min n)) < 2 ^ 8) by (assert (32 < 2 ^ 8) by reflexivity; lia).
  pose proof (head_byte 2 _ Hb). lia.
Qed.
Lemma u64_size n : u64 n -> (List.length (enc_u256 n) <= 9)%nat.
Proof.
  intros H. unfold enc_u256. pose proof (uint_size n). destruct (n <=? 2 ^ 32 - 1); [lia|].
  rewrite (proj2 (N.leb_le n (2 ^ 64 - 1))); [lia|]. unfold u64 in H. lia.
Qed.
Lemma symbol_size t : symbol t -> (List.length (enc_text t) <= 21)%nat.
Proof.
  intros [Hl Ha]. assert (E : utf8 t = t).
  { clear Hl. induction Ha as [|c t Hc Ht IH]; [reflexivity|]. unfold utf8 in *. cbn [flat_map]. rewrite IH.
    unfold utf8_char. rewrite (proj2 (N.ltb_lt _ _)) by auto. reflexivity. }
  unfold enc_text. cbn zeta. rewrite E, app_length, head_short by lia. lia.
Qed.
Lemma fields_size l : (List.length l < 24)%nat ->
  List.length (enc_struct (map Some l)) = (1 + List.length (List.concat l))%nat.
Proof.
  intros Hl. unfold enc_struct.
  assert (E : strip_none (map Some l) = map Some l).
  { clear. induction l as [|x l IH]; [reflexivity|]. cbn [map]. rewrite strip_some, IH. reflexivity. }
  rewrite E, app_length, map_length, head_short by lia. f_equal. clear. induction l as [|x l IH]; [reflexivity|].
  cbn [map flat_map List.concat item]. rewrite !app_length, IH. reflexivity.
Qed.
Lemma variant_size i l : i < 24 -> (List.length l < 24)%nat ->
  List.length (enc_variant i (map Some l)) = (3 + List.length (List.concat l))%nat.
Proof.
  intros Hi Hl. unfold enc_variant, enc_uint. rewrite !app_length, fields_size, !head_short by (auto; reflexivity). lia.
Qed.
Lemma mint_memo_size m : match m with MintConvert _ _ i => u64 i | _ => True end -> (List.length (mint_memo_bytes m) <= 67)%nat.
Proof.
  destruct m as [a h i|b h|b]; intros H; cbn [mint_memo_bytes].
  - pose proof (variant_size 0 [enc_address a; enc_hash h; enc_u256 i] ltac:(reflexivity) ltac:(cbn; lia)) as E. cbn [map] in E. rewrite E. clear E. cbn [List.concat].
    rewrite !app_length, address_size. pose proof (hash_size h). pose proof (u64_size i H). change (List.length (@nil N)) with 0%nat. lia.
  - pose proof (variant_size 1 [enc_uint b; enc_hash h] ltac:(reflexivity) ltac:(cbn; lia)) as E. cbn [map] in E. rewrite E. clear E. cbn [List.concat].
    rewrite !app_length. pose proof (hash_size h). pose proof (uint_size b). change (List.length (@nil N)) with 0%nat. lia.
  - pose proof (variant_size 2 [enc_uint b] ltac:(reflexivity) ltac:(cbn; lia)) as E. cbn [map] in E. rewrite E. clear E. cbn [List.concat].
    rewrite !app_length. pose proof (uint_size b). change (List.length (@nil N)) with 0%nat. lia.
Qed.
Lemma burn_memo_size m : match m with BurnErc20GasFee t _ _ => symbol t | _ => True end -> (List.length (burn_memo_bytes m) <= 80)%nat.
Proof.
  destruct m as [a|t v a|i a]; intros H; cbn [burn_memo_bytes].
  - pose proof (variant_size 0 [enc_address a] ltac:(reflexivity) ltac:(cbn; lia)) as E. cbn [map] in E. rewrite E. clear E. cbn [List.concat].
    rewrite !app_length, address_size. change (List.length (@nil N)) with 0%nat. lia.
  - pose proof (variant_size 1 [enc_text t; enc_u256 v; enc_address a] ltac:(reflexivity) ltac:(cbn; lia)) as E. cbn [map] in E. rewrite E. clear E. cbn [List.concat].
    rewrite !app_length, address_size. pose proof (symbol_size t H). pose proof (u256_size v). change (List.length (@nil N)) with 0%nat. lia.
  - pose proof (variant_size 2 [enc_uint i; enc_address a] ltac:(reflexivity) ltac:(cbn; lia)) as E. cbn [map] in E. rewrite E. clear E. cbn [List.concat].
    rewrite !app_length, address_size. pose proof (uint_size i). change (List.length (@nil N)) with 0%nat. lia.
Qed.
Lemma parsed_symbol t sy : parse_symbol t = Some sy -> symbol sy.
Proof.
  unfold parse_symbol. destruct (N.ltb_spec 20 (N.of_nat (List.length t))) as [H|H]; [discriminate|].
  destruct (forallb (fun ch => ch <? 128) t) eqn:E; [|discriminate]. injection 1 as <-. split; [lia|].
  apply Forall_forall. intros c Hc. rewrite forallb_forall in E. apply N.ltb_lt, E, Hc.
Qed.
Lemma burn_memo_fits m : match m with BurnErc20GasFee sy _ _ => exists t, parse_symbol t = Some sy | _ => True end ->
  (List.length (burn_memo_bytes m) <= 80)%nat.
Proof. intros H. apply burn_memo_size. destruct m; auto. destruct H as (t & H). eapply parsed_symbol; eauto. Qed.

(** ** Different operations *)
Lemma memo_inj m n : ok_mint_memo m -> ok_mint_memo n -> mint_memo_bytes m = mint_memo_bytes n -> m = n.
Proof. exact (codec_inj_all _ _ _ mint_memo_reads m n). Qed.
Lemma deposits_differ d e : ok_mint_memo (memo_of_deposit d) -> ok_mint_memo (memo_of_deposit e) ->
  dep_source d <> dep_source e -> mint_memo_bytes (memo_of_deposit d) <> mint_memo_bytes (memo_of_deposit e).
Proof.
  intros Hd He Hn E. apply memo_inj in E; auto. apply Hn. unfold memo_of_deposit in E. destruct d, e; cbn in *; congruence.
Qed.
Lemma reimbursements_differ q r : ok_mint_memo (memo_of_reimbursement q) -> ok_mint_memo (memo_of_reimbursement r) ->
  (rr_ledger_burn_index q, rr_transaction_hash q) <> (rr_ledger_burn_index r, rr_transaction_hash r) ->
  mint_memo_bytes (memo_of_reimbursement q) <> mint_memo_bytes (memo_of_reimbursement r).
Proof.
  intros Hd He Hn E. apply memo_inj in E; auto. apply Hn. unfold memo_of_reimbursement in E.
  destruct (rr_transaction_hash q), (rr_transaction_hash r); congruence.
Qed.
Lemma not_confused d r : ok_mint_memo (memo_of_deposit d) -> ok_mint_memo (memo_of_reimbursement r) ->
  mint_memo_bytes (memo_of_deposit d) <> mint_memo_bytes (memo_of_reimbursement r).
Proof.
  intros Hd He E. apply memo_inj in E; auto. unfold memo_of_deposit, memo_of_reimbursement in E.
  destruct (rr_transaction_hash r); discriminate.
Qed.
Lemma erc20_burns_differ i a j b : ok_burn_memo (BurnErc20Convert i a) -> ok_burn_memo (BurnErc20Convert j b) -> i <> j ->
  burn_memo_bytes (BurnErc20Convert i a) <> burn_memo_bytes (BurnErc20Convert j b).
Proof. intros Hi Hj Hn E. apply (codec_inj_all _ _ _ burn_memo_reads) in E; auto. congruence. Qed.

(** ** The log *)
Lemma stored_event keccak e : ok_event keccak e -> load_event keccak (store_event e) = Done e.
Proof.
  intros H. unfold load_event. pose proof (proj1 (event_reads keccak) e [] H) as E. rewrite app_nil_r in E. rewrite E. reflexivity.
Qed.
Lemma stored_log keccak log : Forall (ok_event keccak) log -> map (load_event keccak) (map store_event log) = map Done log.
Proof. intros H. rewrite map_map. induction H; [reflexivity|]. cbn [map]. rewrite IHForall, stored_event by auto. reflexivity. Qed.
