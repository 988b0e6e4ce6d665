(** * Facts about log parsing *)

From Verif Require Import Base BMap MultiKeyMap Bytes Types Amount CallData Hex Transactions State Parser ParserSpec
  CodecFacts Sys SysSpec TokenSpec TokenFacts.

Lemma parse_principal_total w : exists o, parse_principal_from_slice w = Done o.
Proof.
  destruct w as [|n tail]; cbn [parse_principal_from_slice]; eauto.
  destruct (32 <? _); eauto. destruct (n =? 0); eauto. destruct (29 <? n); eauto.
  destruct (N.ltb_spec (N.of_nat (List.length (n :: tail))) (1 + n)) as [|H]; eauto.
  cbn [List.length] in H. replace (N.to_nat n <=? List.length tail)%nat with true
    by (symmetry; apply Nat.leb_le; lia).
  cbn [rassert rbind]. repeat (match goal with |- context [if ?b then _ else _] => destruct b end; eauto).
Qed.

Lemma parse_principal_iff w p :
  parse_principal_from_slice w = Done (Some p) <->
  (List.length w <= 32)%nat /\ owner_principal p /\ holds_principal w p.
Proof.
  split.
  - destruct w as [|n tail]; cbn [parse_principal_from_slice]; [discriminate|].
    destruct (N.ltb_spec 32 (N.of_nat (List.length (n :: tail)))) as [|H32]; [discriminate|].
    destruct (N.eqb_spec n 0) as [|H0]; [discriminate|].
    destruct (N.ltb_spec 29 n) as [|H29]; [discriminate|].
    destruct (N.ltb_spec (N.of_nat (List.length (n :: tail))) (1 + n)) as [|Hl]; [discriminate|].
    cbn [List.length] in *. intros H. apply rbind_done in H as (u & _ & H).
    destruct (forallb (fun b => b =? 0) (skipn (N.to_nat n) tail)) eqn:E; [|discriminate]. cbn [negb] in H.
    destruct (bytes_eqb (firstn (N.to_nat n) tail) ANONYMOUS) eqn:Ea; [discriminate|].
    destruct (29 <? _); [discriminate|]. injection H as <-.
    assert (Hf : List.length (firstn (N.to_nat n) tail) = N.to_nat n) by (apply firstn_length_le; lia).
    split; [lia|]. split; [split|].
    + lia.
    + intros H. change [4] with ANONYMOUS in H. apply bytes_eqb_eq in H. congruence.
    + exists (List.length (skipn (N.to_nat n) tail)). rewrite Hf, N2Nat.id. f_equal.
      rewrite <- (forallb_all0 _ E). symmetry. apply firstn_skipn.
  - intros (Hlen & [Hp Hne] & (k & ->)). cbn [parse_principal_from_slice].
    cbn [List.length] in Hlen. rewrite app_length, repeat_length in Hlen.
    assert (E32 : 32 <? N.of_nat (List.length (N.of_nat (List.length p) :: p ++ repeat 0 k)) = false).
    { apply N.ltb_ge. cbn [List.length]. rewrite app_length, repeat_length. lia. }
    rewrite E32.
    replace (N.of_nat (List.length p) =? 0) with false by (symmetry; apply N.eqb_neq; lia).
    replace (29 <? N.of_nat (List.length p)) with false by (symmetry; apply N.ltb_ge; lia).
    match goal with |- context [?a <? ?b] => replace (a <? b) with false end.
    2: { symmetry. apply N.ltb_ge. cbn [List.length]. rewrite app_length. lia. }
    rewrite Nat2N.id. rewrite app_length. replace (List.length p <=? List.length p + List.length (repeat 0%N k))%nat
      with true by (symmetry; apply Nat.leb_le; lia).
    cbn [rassert rbind]. rewrite firstn_app_exact, skipn_app_exact by reflexivity.
    rewrite forallb_repeat0. cbn [negb].
    replace (bytes_eqb p ANONYMOUS) with false.
    2: { symmetry. destruct (bytes_eqb p ANONYMOUS) eqn:E; auto. apply bytes_eqb_eq in E. contradiction. }
    replace (29 <? N.of_nat (List.length p)) with false by (symmetry; apply N.ltb_ge; lia). reflexivity.
Qed.
Lemma holds_principal_fun w p q : holds_principal w p -> holds_principal w q -> p = q.
Proof.
  intros (k & ->) (k' & H). injection H as Hl H. apply Nat2N.inj in Hl.
  assert (E : firstn (List.length p) (p ++ repeat 0 k) = firstn (List.length p) (q ++ repeat 0 k')) by congruence.
  rewrite firstn_app_exact in E by reflexivity. rewrite Hl, firstn_app_exact in E by reflexivity. exact E.
Qed.

Lemma num_word_be w : List.length w = 32%nat -> byte_list w -> num_word (of_be w) w.
Proof. intros. split; auto. Qed.
Lemma num_word_fun n m w : num_word n w -> num_word m w -> n = m.
Proof. intros (_ & _ & <-) (_ & _ & <-). reflexivity. Qed.
Lemma num_word_eq n w : num_word n w -> w = be_bytes 32 n.
Proof. intros (Hl & Hb & <-). rewrite <- Hl. symmetry. apply be_bytes_of_be. exact Hb. Qed.

Lemma of_be_zeros k l : of_be (repeat 0 k ++ l) = of_be l.
Proof. induction k as [|k IH]; auto. Qed.
Lemma address_word_of a : is_address a -> num_word a (address_to_word a).
Proof.
  intros Ha. unfold address_to_word. split; [apply address_word_length|]. split.
  - apply Forall_app. split; [apply Forall_forall; intros x Hx; apply repeat_spec in Hx; lia|apply be_bytes_byte_list].
  - rewrite of_be_zeros. apply of_be_be_bytes_small. rewrite addr_pow. exact Ha.
Qed.
Lemma address_of_word_num w a : List.length w = 32%nat -> byte_list w ->
  (address_of_word w = Some a <-> a < 2 ^ 160 /\ num_word a w).
Proof.
  intros Hl Hb. rewrite (address_of_word_iff w a Hl Hb). split.
  - intros [Ha ->]. split; [exact Ha|apply address_word_of; exact Ha].
  - intros [Ha Hw]. split; [exact Ha|]. rewrite (num_word_eq _ _ Hw).
    symmetry. apply num_word_eq. apply address_word_of. exact Ha.
Qed.

Lemma subaccount_word w : List.length w = 32%nat -> byte_list w ->
  subaccount_from_bytes w = if of_be w =? 0 then None else Some (of_be w).
Proof.
  intros Hl Hb. unfold subaccount_from_bytes. destruct (bytes_eqb w (repeat 0 32)) eqn:E.
  - apply bytes_eqb_eq in E. subst w. reflexivity.
  - destruct (N.eqb_spec (of_be w) 0) as [H|H]; auto.
    assert (w = repeat 0 32); [|subst w; discriminate].
    rewrite (num_word_eq (of_be w) w) by (split; auto). rewrite H. reflexivity.
Qed.

Lemma native_zero t : is_native_token t = (t =? 0).
Proof. reflexivity. Qed.

Lemma byte_list_split k l : byte_list l -> byte_list (firstn k l) /\ byte_list (skipn k l).
Proof. intros H. rewrite <- (firstn_skipn k l) in H. apply Forall_app in H. exact H. Qed.

Lemma ensure_ok e b h i : ensure_not_pending e = ROk (b, (h, i)) <-> mined e b h i.
Proof.
  unfold ensure_not_pending, mined.
  destruct (le_block_hash e), (le_block_number e), (le_transaction_hash e), (le_transaction_index e), (le_log_index e);
    split; try discriminate; try (intros (? & ? & ? & ? & ?); congruence).
  - injection 1 as -> -> ->. repeat split; discriminate.
Qed.

Lemma parse_log_ok e d : wire e ->
  (parse_log e = Done (ROk d) <->
   exists x block tx index, mined e block tx index /\ le_removed e = false /\ encodes e x /\
     d = deposit_of x block tx index).
Proof.
  intros [Ht Hd]. split.
  - unfold parse_log. destruct (ensure_not_pending e) as [[b [h i]]|] eqn:Em; [|discriminate].
    apply ensure_ok in Em.
    destruct (le_removed e); [discriminate|].
    destruct (Nat.eqb_spec (List.length (le_topics e)) 4) as [Hl|]; [|discriminate].
    destruct (le_topics e) as [|t0 [|t1 [|t2 [|t3 [|]]]]] eqn:Et; try discriminate Hl. clear Hl.
    cbn [andb]. destruct (bytes_eqb t0 DEPOSIT_TOPIC) eqn:E0; [|discriminate]. apply bytes_eqb_eq in E0. subst t0.
    cbn [negb]. destruct (Nat.eqb_spec (List.length (le_data e)) 64) as [Hl|]; [|discriminate]. cbn [negb].
    inversion Ht as [|? ? _ Ht']; subst. inversion Ht' as [|? ? [L1 B1] Ht'']; subst.
    inversion Ht'' as [|? ? [L2 B2] Ht3]; subst. inversion Ht3 as [|? ? [L3 B3] _]; subst. clear Ht Ht' Ht'' Ht3.
    destruct (byte_list_split 32 _ Hd) as [D1 D2].
    assert (LD1 : List.length (firstn 32 (le_data e)) = 32%nat) by (apply firstn_length_le; lia).
    assert (LD2 : List.length (skipn 32 (le_data e)) = 32%nat) by (rewrite skipn_length; lia).
    destruct (address_of_word (firstn 32 (le_data e))) as [from|] eqn:Ef; [|discriminate].
    cbn [nth_error expect rbind]. destruct (address_of_word t1) as [token|] eqn:Ek; [|discriminate].
    intros H. apply rbind_done in H as ([p|] & Hp & H); [|discriminate]. injection H as <-.
    apply address_of_word_num in Ef as [F1 F2]; auto. apply address_of_word_num in Ek as [K1 K2]; auto.
    apply parse_principal_iff in Hp as (_ & P1 & P2).
    exists {| dl_from := from; dl_token := token; dl_amount := of_be t2; dl_principal := p;
              dl_subaccount := of_be (skipn 32 (le_data e)) |}, b, h, i.
    split; auto. split; auto. split.
    + split; auto. split; auto. split; auto. split.
      * exists t1, t2, t3. cbn. split; auto. split; auto. split; [split|]; auto.
      * exists (firstn 32 (le_data e)), (skipn 32 (le_data e)).
        split; [symmetry; apply firstn_skipn|]. split; auto. split; auto.
    + unfold deposit_of. cbn [dl_from dl_token dl_amount dl_principal dl_subaccount fst snd].
      rewrite native_zero, subaccount_word by auto. reflexivity.
  - intros (x & b & h & i & Hm & Hr & (F1 & K1 & P1 & (tk & am & pr & Et & K2 & A2 & P2) & (fr & sb & Ed & F2 & S2)) & ->).
    unfold parse_log. apply ensure_ok in Hm. rewrite Hm, Hr, Et. cbn [List.length Nat.eqb andb].
    rewrite bytes_eqb_refl. cbn [negb nth_error expect rbind].
    destruct F2 as (LF & BF & F2), S2 as (LS & BS & S2), A2 as (LA & BA & A2).
    assert (LK : List.length tk = 32%nat) by apply K2. assert (BK : byte_list tk) by apply K2.
    rewrite Ed, app_length, LF, LS. cbn [Nat.add Nat.eqb negb].
    rewrite firstn_app_exact, skipn_app_exact by auto.
    assert (E1 : address_of_word fr = Some (dl_from x)) by (apply address_of_word_num; auto; split; auto; split; auto).
    assert (E2 : address_of_word tk = Some (dl_token x)) by (apply address_of_word_num; auto).
    rewrite E1, E2.
    assert (E3 : parse_principal_from_slice pr = Done (Some (dl_principal x))).
    { apply parse_principal_iff. split; auto. rewrite Et in Ht.
      inversion Ht as [|? ? _ Ht']; subst. inversion Ht' as [|? ? _ Ht'']; subst.
      inversion Ht'' as [|? ? _ Ht3]; subst. inversion Ht3 as [|? ? [L3 _] _]; subst. lia. }
    rewrite E3. cbn [rbind fst snd]. rewrite subaccount_word, S2, A2, native_zero by auto. reflexivity.
Qed.

Lemma parse_log_err e :
  (forall b h i, ~ mined e b h i) /\ parse_log e = Done (RErr PendingLogEntry) \/
  (exists b h i, mined e b h i /\
     ((exists d, parse_log e = Done (ROk d)) \/
      exists x, parse_log e = Done (RErr (InvalidEventSource (h, i) x)))).
Proof.
  destruct (ensure_not_pending e) as [[b [h i]]|x] eqn:Em.
  - right. exists b, h, i. split; [apply ensure_ok; auto|]. unfold parse_log. rewrite Em. unfold perr.
    destruct (le_removed e); [right; eexists; reflexivity|].
    destruct (Nat.eqb_spec (List.length (le_topics e)) 4) as [Hl|]; [|right; eexists; reflexivity].
    destruct (le_topics e) as [|t0 [|t1 [|t2 [|t3 [|]]]]] eqn:Et; try discriminate Hl.
    cbn [andb]. destruct (bytes_eqb t0 DEPOSIT_TOPIC); [|right; eexists; reflexivity]. cbn [negb].
    destruct (Nat.eqb_spec (List.length (le_data e)) 64); [|right; eexists; reflexivity]. cbn [negb].
    destruct (address_of_word (firstn 32 (le_data e))); [|right; eexists; reflexivity]. cbn [nth_error expect rbind].
    destruct (address_of_word t1); [|right; eexists; reflexivity].
    destruct (parse_principal_total t3) as ([p|] & Hp); rewrite Hp; cbn [rbind]; [left|right]; eexists; reflexivity.
  - left. split.
    + intros b h i H. apply ensure_ok in H. congruence.
    + unfold parse_log. rewrite Em. unfold ensure_not_pending in Em.
      destruct (le_block_hash e), (le_block_number e), (le_transaction_hash e), (le_transaction_index e), (le_log_index e);
        inversion Em; reflexivity.
Qed.

Lemma mined_fun e b h i b' h' i' : mined e b h i -> mined e b' h' i' -> b = b' /\ h = h' /\ i = i'.
Proof. intros (A & B & C & _) (A' & B' & C' & _). repeat split; congruence. Qed.
Lemma encodes_fun e x y : encodes e x -> encodes e y -> x = y.
Proof.
  intros (_ & _ & _ & (t1 & t2 & t3 & E & A1 & A2 & A3) & (f & sb & D & A4 & A5))
    (_ & _ & _ & (t1' & t2' & t3' & E' & B1 & B2 & B3) & (f' & sb' & D' & B4 & B5)).
  rewrite E in E'. injection E' as <- <- <-. rewrite D in D'.
  assert (f = f' /\ sb = sb') as [<- <-].
  { assert (firstn 32 (f ++ sb) = firstn 32 (f' ++ sb')) by congruence.
    assert (skipn 32 (f ++ sb) = skipn 32 (f' ++ sb')) by congruence.
    rewrite !firstn_app_exact in H by (apply A4 || apply B4).
    rewrite !skipn_app_exact in H0 by (apply A4 || apply B4). auto. }
  destruct x, y; cbn in *. f_equal; try (eapply num_word_fun; eauto). eapply holds_principal_fun; eauto.
Qed.

Lemma parse_all_spec l ok errs : parse_all_logs l = Done (ok, errs) ->
  (forall d, In d ok <-> exists e, In e l /\ parse_log e = Done (ROk d)) /\
  (forall x, In x errs <-> exists e, In e l /\ parse_log e = Done (RErr x)) /\
  (List.length ok + List.length errs = List.length l)%nat.
Proof.
  revert ok errs. induction l as [|e l IH]; intros ok errs; cbn [parse_all_logs].
  - injection 1 as <- <-. cbn. split; [|split]; auto; intros; split; try tauto; intros (? & [] & _).
  - intros H. apply rbind_done in H as (r & Hr & H). apply rbind_done in H as ([ok' errs'] & Hx & H).
    destruct (IH _ _ Hx) as (A & B & C). destruct r as [d0|x0]; injection H as <- <-; cbn [List.length].
    + split; [|split]; [| |lia].
      * intros d. split.
        -- intros [<-|Hd]; [exists e; split; [left|]; auto|]. apply A in Hd as (e' & ? & ?). exists e'. split; [right|]; auto.
        -- intros (e' & [<-|He'] & Hp); [left; congruence|right; apply A; eauto].
      * intros x. rewrite B. split; intros (e' & He' & Hp); [exists e'; split; [right|]; auto|].
        destruct He' as [<-|He']; [congruence|eauto].
    + split; [|split]; [| |lia].
      * intros d. rewrite A. split; intros (e' & He' & Hp); [exists e'; split; [right|]; auto|].
        destruct He' as [<-|He']; [congruence|eauto].
      * intros d. split.
        -- intros [<-|Hd]; [exists e; split; [left|]; auto|]. apply B in Hd as (e' & ? & ?). exists e'. split; [right|]; auto.
        -- intros (e' & [<-|He'] & Hp); [left; congruence|right; apply B; eauto].
Qed.
Lemma parse_log_total e : exists r, parse_log e = Done r.
Proof. destruct (parse_log_err e) as [[_ H]|(b & h & i & _ & [(d & H)|(x & H)])]; eauto. Qed.
Lemma parse_all_total l : exists r, parse_all_logs l = Done r.
Proof.
  induction l as [|e l [[ok errs] IH]]; cbn [parse_all_logs]; eauto.
  destruct (parse_log_total e) as (r & ->). cbn [rbind]. rewrite IH. cbn. destruct r; eauto.
Qed.

(** ** The log filter *)
Lemma filter_matches_iff s sc e x : next_scrape s = Done sc -> encodes e x ->
  (forall a, In a (dmkm_alt_keys (erc20_tokens s)) -> is_address a) ->
  (topics_match (sc_topics sc) (le_topics e) <->
   dmkm_alt_keys (erc20_tokens s) = [] \/ In (dl_token x) (dmkm_alt_keys (erc20_tokens s))).
Proof.
  unfold next_scrape. intros H (_ & K1 & _ & (tk & am & pr & Et & K2 & _) & _) Hadr.
  apply rbind_done in H as (c & _ & H). injection H as <-. cbn [sc_topics]. rewrite Et.
  assert (tk = address_to_word (dl_token x)).
  { rewrite (num_word_eq _ _ K2). symmetry. apply num_word_eq, address_word_of. exact K1. }
  subst tk. cbn [topics_match]. split.
  - intros (_ & [Hm|Hm] & _).
    + left. destruct (dmkm_alt_keys (erc20_tokens s)); [reflexivity|discriminate].
    + right. apply in_map_iff in Hm as (a & Ha & Hin).
      replace (dl_token x) with a; auto.
      apply (num_word_fun a (dl_token x) (address_to_word a)); [apply address_word_of; auto|].
      rewrite Ha. apply address_word_of. exact K1.
  - intros [Hm|Hm]; (split; [reflexivity|split; [|exact Logic.I]]).
    + left. rewrite Hm. reflexivity.
    + right. apply in_map_iff. eauto.
Qed.
Lemma filter_listed self keccak env s sc e x : reach self keccak env s ->
  next_scrape (sys_state s) = Done sc -> encodes e x ->
  (topics_match (sc_topics sc) (le_topics e) <->
   (forall l c y, ~ listed (sys_state s) l c y) \/ exists l y, listed (sys_state s) l (dl_token x) y).
Proof.
  intros Hr Hs He. rewrite (filter_matches_iff _ _ _ _ Hs He (token_addresses self keccak env s Hr)). split.
  - intros [H|H].
    + left. intros l c y Hl. apply (listed_alt_key self keccak env s l c y Hr) in Hl. rewrite H in Hl. exact Hl.
    + right. exact (alt_key_listed self keccak env s _ Hr H).
  - intros [H|(l & y & H)].
    + left. destruct (dmkm_alt_keys _) as [|c rest] eqn:E; auto. exfalso.
      destruct (alt_key_listed self keccak env s c Hr) as (l & y & Hl); [rewrite E; left; reflexivity|].
      exact (H l c y Hl).
    + right. exact (listed_alt_key self keccak env s l _ y Hr H).
Qed.
