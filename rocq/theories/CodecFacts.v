(** * Facts about 32-byte words, calldata and hexadecimal text *)

From Verif Require Import Base Bytes Types Amount CallData Hex.

Lemma address_word_length a : List.length (address_to_word a) = 32%nat.
Proof. unfold address_to_word. rewrite app_length, repeat_length, be_bytes_length. reflexivity. Qed.

Lemma forallb_repeat0 n : forallb (fun b => b =? 0) (repeat 0 n) = true.
Proof. induction n; cbn [repeat forallb]; auto. Qed.

Lemma firstn_app_exact {A} n (l1 l2 : list A) :
  List.length l1 = n -> firstn n (l1 ++ l2) = l1.
Proof.
  intros <-. rewrite firstn_app, Nat.sub_diag, firstn_all, firstn_O, app_nil_r. reflexivity.
Qed.
Lemma skipn_app_exact {A} n (l1 l2 : list A) :
  List.length l1 = n -> skipn n (l1 ++ l2) = l2.
Proof.
  intros <-. rewrite skipn_app, Nat.sub_diag, skipn_all. reflexivity.
Qed.

Lemma address_of_to_word a : is_address a -> address_of_word (address_to_word a) = Some a.
Proof.
  intros Ha. unfold address_of_word, address_to_word.
  rewrite firstn_app_exact, skipn_app_exact by apply repeat_length.
  rewrite forallb_repeat0, of_be_be_bytes_small; [reflexivity|]. rewrite addr_pow. exact Ha.
Qed.

Lemma forallb_all0 l : forallb (fun b => b =? 0) l = true -> l = repeat 0 (List.length l).
Proof.
  induction l as [|x l IH]; cbn [forallb List.length repeat]; auto.
  rewrite andb_true_iff, N.eqb_eq. intros [-> H]. f_equal. auto.
Qed.

(** A word decodes to [a] iff it is the padded form of [a]. *)
Lemma address_of_word_iff w a :
  List.length w = 32%nat -> byte_list w ->
  (address_of_word w = Some a <-> is_address a /\ w = address_to_word a).
Proof.
  intros Hl Hb. split.
  - unfold address_of_word. destruct (forallb _ (firstn 12 w)) eqn:E; [|discriminate].
    injection 1 as <-. apply forallb_all0 in E. rewrite firstn_length_le in E by lia.
    assert (Hs : List.length (skipn 12 w) = 20%nat) by (rewrite skipn_length; lia).
    assert (Hb2 : byte_list (skipn 12 w)).
    { unfold byte_list in *. rewrite Forall_forall in *. intros x Hx. apply Hb.
      rewrite <- (firstn_skipn 12 w). apply in_or_app; auto. }
    split.
    + unfold is_address. pose proof (of_be_lt (skipn 12 w) Hb2) as H.
      rewrite Hs in H. rewrite addr_pow in H. exact H.
    + unfold address_to_word. rewrite <- Hs, be_bytes_of_be by auto. rewrite <- E.
      now rewrite firstn_skipn.
  - intros [Ha ->]. apply address_of_to_word; auto.
Qed.

Lemma calldata_length a v : List.length (calldata_encode a v) = 68%nat.
Proof.
  unfold calldata_encode, amount_to_be.
  rewrite !app_length, address_word_length, be_bytes_length. reflexivity.
Qed.

Lemma calldata_round_trip a v :
  is_address a -> is_u256 v -> calldata_decode (calldata_encode a v) = Done (ROk (a, v)).
Proof.
  intros Ha Hv. unfold calldata_decode. rewrite calldata_length. cbn [Nat.ltb Nat.leb].
  unfold calldata_encode at 1. rewrite firstn_app_exact by reflexivity.
  rewrite bytes_eqb_refl. cbn [negb Nat.eqb].
  unfold calldata_encode. rewrite (skipn_app_exact 4) by reflexivity.
  rewrite firstn_app_exact by apply address_word_length.
  rewrite address_of_to_word by auto. cbn [expect rbind].
  rewrite app_assoc, skipn_app_exact.
  2:{ rewrite app_length, address_word_length. reflexivity. }
  unfold amount_from_be, amount_to_be. rewrite of_be_be_bytes_small; [reflexivity|].
  rewrite u256_pow. unfold is_u256 in Hv. pose proof U256_MAX_val. lia.
Qed.

Lemma skipn_skipn {A} n m (l : list A) : skipn n (skipn m l) = skipn (m + n) l.
Proof.
  revert l. induction m as [|m IH]; intros l; [reflexivity|].
  destruct l as [|a l]; cbn [skipn Nat.add]; [apply skipn_nil|apply IH].
Qed.

(** Only encodings decode. *)
Lemma calldata_decode_ok data a v :
  byte_list data -> calldata_decode data = Done (ROk (a, v)) ->
  is_address a /\ is_u256 v /\ data = calldata_encode a v.
Proof.
  intros Hb. unfold calldata_decode.
  destruct (Nat.ltb_spec (List.length data) 4); [discriminate|].
  destruct (bytes_eqb (firstn 4 data) ERC20_TRANSFER_SELECTOR) eqn:E1; [|discriminate].
  destruct (Nat.eqb_spec (List.length data) 68) as [Hl|]; [|discriminate].
  cbn [negb]. destruct (address_of_word (firstn 32 (skipn 4 data))) as [a'|] eqn:E2;
    [|discriminate].
  cbn [expect rbind]. intros Heq.
  assert (Hv : v = amount_from_be (skipn 36 data)) by congruence.
  assert (a' = a) by congruence. clear Heq. subst a' v.
  assert (Hsub : forall n, byte_list (skipn n data)).
  { intros n. unfold byte_list in *. rewrite Forall_forall in *. intros x Hx. apply Hb.
    rewrite <- (firstn_skipn n data). apply in_or_app; auto. }
  assert (Hl1 : List.length (firstn 32 (skipn 4 data)) = 32%nat).
  { rewrite firstn_length_le; auto. rewrite skipn_length. lia. }
  assert (Hb1 : byte_list (firstn 32 (skipn 4 data))).
  { unfold byte_list. rewrite Forall_forall. intros x Hx.
    specialize (Hsub 4%nat). unfold byte_list in Hsub. rewrite Forall_forall in Hsub.
    apply Hsub. rewrite <- (firstn_skipn 32 (skipn 4 data)). apply in_or_app; auto. }
  apply address_of_word_iff in E2; auto. destruct E2 as [Ha E2].
  assert (Hl2 : List.length (skipn 36 data) = 32%nat) by (rewrite skipn_length; lia).
  split; [auto|]. split.
  - unfold amount_from_be, is_u256. pose proof (of_be_lt _ (Hsub 36%nat)) as H1.
    rewrite Hl2, u256_pow in H1. apply N.lt_succ_r. rewrite <- N.add_1_r. exact H1.
  - unfold calldata_encode, amount_to_be, amount_from_be.
    assert (E3 : be_bytes 32 (of_be (skipn 36 data)) = skipn 36 data).
    { pose proof (be_bytes_of_be _ (Hsub 36%nat)) as E3. rewrite Hl2 in E3. exact E3. }
    rewrite E3. rewrite <- E2. apply bytes_eqb_eq in E1. rewrite <- E1.
    transitivity (firstn 4 data ++ skipn 4 data); [symmetry; apply firstn_skipn|].
    f_equal. transitivity (firstn 32 (skipn 4 data) ++ skipn 32 (skipn 4 data));
      [symmetry; apply firstn_skipn|]. f_equal.
    rewrite skipn_skipn. reflexivity.
Qed.

(** ** Hexadecimal *)

Lemma hex_val_digit v : v < 16 -> hex_val (hex_digit v) = Some v.
Proof.
  intros Hv. unfold hex_digit. destruct (N.ltb_spec v 10); unfold hex_val.
  - destruct (N.leb_spec 48 (48 + v)); [|lia]. destruct (N.leb_spec (48 + v) 57); [|lia].
    cbn [andb]. f_equal. lia.
  - destruct (N.leb_spec 48 (87 + v)); [|lia]. destruct (N.leb_spec (87 + v) 57); [lia|].
    destruct (N.leb_spec 65 (87 + v)); [|lia]. destruct (N.leb_spec (87 + v) 70); [lia|].
    destruct (N.leb_spec 97 (87 + v)); [|lia]. destruct (N.leb_spec (87 + v) 102); [|lia].
    cbn [andb]. f_equal. lia.
Qed.

Lemma hex_val_upper v : v < 16 -> hex_val (ascii_upper (hex_digit v)) = Some v.
Proof.
  intros Hv. unfold ascii_upper.
  destruct ((97 <=? hex_digit v) && (hex_digit v <=? 122)) eqn:E; [|apply hex_val_digit; auto].
  revert E. unfold hex_digit. destruct (N.ltb_spec v 10); intros E; [lia|].
  unfold hex_val.
  destruct (N.leb_spec 48 (87 + v - 32)); [|lia]. destruct (N.leb_spec (87 + v - 32) 57); [lia|].
  destruct (N.leb_spec 65 (87 + v - 32)); [|lia]. destruct (N.leb_spec (87 + v - 32) 70); [|lia].
  cbn [andb]. f_equal. lia.
Qed.

(** Any mixed-case rendering of the digits decodes to the same bytes. *)
Lemma hex_decode_mixed l (cs : list N) :
  byte_list l -> List.length cs = (2 * List.length l)%nat ->
  hex_decode (map (fun x => if 8 <=? snd x then ascii_upper (fst x) else fst x)
                (combine (hex_encode l) cs)) = Some l.
Proof.
  revert cs. induction l as [|b l IH]; intros cs Hb Hl.
  - destruct cs; reflexivity.
  - cbn [List.length] in Hl. destruct cs as [|c1 [|c2 cs]]; cbn [List.length] in Hl; try lia.
    unfold byte_list in Hb. inversion Hb as [|? ? Hb1 Hb2]; subst.
    cbn [hex_encode flat_map app combine map hex_decode fst snd].
    assert (H1 : b / 16 < 16) by lia. assert (H2 : b mod 16 < 16) by lia.
    replace (hex_val (if 8 <=? c1 then ascii_upper (hex_digit (b / 16)) else hex_digit (b / 16)))
      with (Some (b / 16)).
    2:{ destruct (8 <=? c1); [rewrite hex_val_upper | rewrite hex_val_digit]; auto. }
    replace (hex_val (if 8 <=? c2 then ascii_upper (hex_digit (b mod 16)) else hex_digit (b mod 16)))
      with (Some (b mod 16)).
    2:{ destruct (8 <=? c2); [rewrite hex_val_upper | rewrite hex_val_digit]; auto. }
    change (flat_map (fun b0 => [hex_digit (b0 / 16); hex_digit (b0 mod 16)]) l)
      with (hex_encode l).
    rewrite IH; auto; [|lia]. do 2 f_equal. lia.
Qed.

Lemma hex_encode_length l : List.length (hex_encode l) = (2 * List.length l)%nat.
Proof. induction l; cbn [hex_encode flat_map app List.length] in *; auto. unfold hex_encode in *. lia. Qed.

Lemma nibbles_length l : List.length (nibbles l) = (2 * List.length l)%nat.
Proof. induction l; cbn [nibbles flat_map app List.length] in *; auto. unfold nibbles in *. lia. Qed.

Lemma combine_firstn_r {A B} (l : list A) (l' : list B) :
  combine l l' = combine l (firstn (List.length l) l').
Proof.
  revert l'. induction l as [|a l IH]; intros [|b l']; cbn [combine firstn List.length]; auto.
  f_equal. auto.
Qed.

Lemma address_text_round_trip keccak a :
  (forall l, List.length (keccak l) = 32%nat) ->
  is_address a -> address_of_text (address_to_text keccak a) = Some a.
Proof.
  intros Hk Ha. unfold address_to_text, address_of_text. cbn [app].
  unfold hex_decode_to. rewrite combine_firstn_r, hex_decode_mixed.
  - rewrite be_bytes_length, Nat.eqb_refl. cbn [option_map].
    rewrite of_be_be_bytes_small; [reflexivity|]. rewrite addr_pow. exact Ha.
  - apply be_bytes_byte_list.
  - rewrite firstn_length_le.
    + rewrite hex_encode_length, be_bytes_length. reflexivity.
    + rewrite nibbles_length, Hk, hex_encode_length, be_bytes_length. lia.
Qed.

Lemma hex_decode_length s l : hex_decode s = Some l -> List.length s = (2 * List.length l)%nat.
Proof.
  revert s. induction l as [|x l IH]; intros s.
  - destruct s as [|a [|b s]]; cbn [hex_decode]; auto; try discriminate.
    destruct (hex_val a), (hex_val b), (hex_decode s); discriminate.
  - destruct s as [|a [|b s]]; cbn [hex_decode]; try discriminate.
    destruct (hex_val a), (hex_val b), (hex_decode s) eqn:E; try discriminate.
    injection 1 as _ ->. cbn [List.length]. rewrite (IH s); auto. lia.
Qed.

Lemma hex_val_lt c v : hex_val c = Some v -> v < 16.
Proof.
  unfold hex_val.
  destruct ((48 <=? c) && (c <=? 57)) eqn:E1; [injection 1 as <-; lia|].
  destruct ((65 <=? c) && (c <=? 70)) eqn:E2; [injection 1 as <-; lia|].
  destruct ((97 <=? c) && (c <=? 102)) eqn:E3; [injection 1 as <-; lia|discriminate].
Qed.

Lemma hex_decode_bytes s l : hex_decode s = Some l -> byte_list l.
Proof.
  revert s. induction l as [|x l IH]; intros s; [constructor|].
  destruct s as [|a [|b s]]; cbn [hex_decode]; try discriminate.
  destruct (hex_val a) eqn:Ea, (hex_val b) eqn:Eb, (hex_decode s) eqn:E; try discriminate.
  injection 1 as <- <-. constructor; [|eapply IH; eauto].
  apply hex_val_lt in Ea. apply hex_val_lt in Eb. lia.
Qed.

Lemma address_of_text_is_address s a : address_of_text s = Some a -> is_address a.
Proof.
  intros H. assert (Hx : exists s', option_map of_be (hex_decode_to 20 s') = Some a).
  { unfold address_of_text in H.
    repeat match type of H with
           | match ?x with _ => _ end = _ => destruct x; try discriminate
           end. eauto. }
  destruct Hx as (s' & Hx). unfold hex_decode_to in Hx.
  destruct (hex_decode s') as [l|] eqn:E; [|discriminate].
  destruct (Nat.eqb_spec (List.length l) 20) as [Hl|]; [|discriminate].
  cbn [option_map] in Hx. injection Hx as <-.
  unfold is_address. pose proof (of_be_lt l (hex_decode_bytes _ _ E)) as H1.
  rewrite Hl, addr_pow in H1. exact H1.
Qed.

(** A text is an address iff it is "0x" and forty hexadecimal digits. *)
Definition is_hex (c : N) : Prop := exists v, hex_val c = Some v.
Lemma hex_decode_some n s :
  List.length s = (2 * n)%nat -> Forall is_hex s -> exists l, hex_decode s = Some l /\ List.length l = n.
Proof.
  revert s. induction n as [|n IH]; intros s Hl Hf.
  - destruct s; [|cbn in Hl; lia]. exists []; auto.
  - destruct s as [|a [|b s]]; cbn [List.length] in Hl; try lia.
    inversion Hf as [|? ? [x Hx] Hf1]; subst. inversion Hf1 as [|? ? [y Hy] Hf2]; subst.
    destruct (IH s) as (l & E & Hn); [lia|auto|].
    exists (x * 16 + y :: l). cbn [hex_decode]. rewrite Hx, Hy, E. cbn [List.length]. auto.
Qed.
Lemma hex_decode_hex s l : hex_decode s = Some l -> Forall is_hex s.
Proof.
  revert s. induction l as [|x l IH]; intros s.
  - destruct s as [|a [|b s]]; cbn [hex_decode]; auto; try discriminate.
    destruct (hex_val a), (hex_val b), (hex_decode s); discriminate.
  - destruct s as [|a [|b s]]; cbn [hex_decode]; try discriminate.
    destruct (hex_val a) eqn:Ea, (hex_val b) eqn:Eb, (hex_decode s) eqn:E; try discriminate.
    injection 1 as _ ->. repeat constructor; try (eexists; eauto). eauto.
Qed.
Lemma address_of_text_iff s :
  (exists a, address_of_text s = Some a) <->
  exists t, s = [48; 120] ++ t /\ List.length t = 40%nat /\ Forall is_hex t.
Proof.
  split.
  - intros (a & H).
    assert (Hx : exists s', s = 48 :: 120 :: s' /\ option_map of_be (hex_decode_to 20 s') = Some a).
    { unfold address_of_text in H.
      repeat match type of H with
             | match ?x with _ => _ end = _ => destruct x; try discriminate
             end. eauto. }
    destruct Hx as (s' & -> & Hx). exists s'. split; [reflexivity|].
    unfold hex_decode_to in Hx. destruct (hex_decode s') as [l|] eqn:E; [|discriminate].
    destruct (Nat.eqb_spec (List.length l) 20) as [Hl|]; [|discriminate].
    split; [rewrite (hex_decode_length _ _ E); lia | eapply hex_decode_hex; eauto].
  - intros (t & -> & Hl & Hf). cbn [app address_of_text].
    destruct (hex_decode_some 20 t) as (l & E & Hn); auto.
    unfold hex_decode_to. rewrite E, Hn. cbn. eauto.
Qed.

(** ** Statements used by the property file *)
From Verif Require Import Network.

Lemma u256_iff n : n < 2 ^ 256 <-> is_u256 n.
Proof. unfold is_u256. rewrite <- U256_MAX_val. lia. Qed.

Lemma calldata_round_trip' :
  forall to value, is_address to -> value < 2 ^ 256 ->
    calldata_decode (calldata_encode to value) = Done (ROk (to, value)).
Proof. intros to value H1 H2. apply calldata_round_trip; auto. apply u256_iff; auto. Qed.

Lemma calldata_decode_ok' :
  forall data to value, byte_list data ->
    calldata_decode data = Done (ROk (to, value)) ->
    is_address to /\ value < 2 ^ 256 /\ data = calldata_encode to value.
Proof. intros data to value H1 H2. rewrite u256_iff. apply calldata_decode_ok; auto. Qed.

Lemma calldata_layout :
  forall to value, is_address to -> value < 2 ^ 256 ->
    exists p q, calldata_encode to value = [169; 5; 156; 187] ++ repeat 0 12 ++ p ++ q /\
      List.length p = 20%nat /\ of_be p = to /\ List.length q = 32%nat /\ of_be q = value.
Proof.
  intros to value H1 H2. exists (be_bytes 20 to), (be_bytes 32 value).
  split; [unfold calldata_encode, address_to_word, amount_to_be; rewrite <- app_assoc; reflexivity|].
  rewrite !be_bytes_length.
  split; [reflexivity|]. split; [apply of_be_be_bytes_small; rewrite addr_pow; exact H1|].
  split; [reflexivity|]. apply of_be_be_bytes_small. rewrite u256_pow, U256_MAX_val; auto.
Qed.

Lemma calldata_decode_panic_iff :
  forall data, byte_list data ->
    ((exists msg, calldata_decode data = Panic msg) <->
     List.length data = 68%nat /\ firstn 4 data = [169; 5; 156; 187] /\
     firstn 12 (skipn 4 data) <> repeat 0 12).
Proof.
  intros data Hb. unfold calldata_decode.
  destruct (Nat.ltb_spec (List.length data) 4) as [H0|H0].
  { split; [intros [? ?]; discriminate|]. intros [H1 _]. lia. }
  destruct (bytes_eqb (firstn 4 data) ERC20_TRANSFER_SELECTOR) eqn:E1; cbn [negb].
  2:{ split; [intros [? ?]; discriminate|]. intros (_ & H1 & _).
      assert (bytes_eqb (firstn 4 data) ERC20_TRANSFER_SELECTOR = true); [|congruence].
      apply bytes_eqb_eq; auto. }
  apply bytes_eqb_eq in E1.
  destruct (Nat.eqb_spec (List.length data) 68) as [Hl|Hl]; cbn [negb].
  2:{ split; [intros [? ?]; discriminate|]. intros [H1 _]. lia. }
  assert (Hff : firstn 12 (firstn 32 (skipn 4 data)) = firstn 12 (skipn 4 data)).
  { rewrite firstn_firstn. reflexivity. }
  unfold address_of_word. rewrite Hff.
  destruct (forallb (fun b => b =? 0) (firstn 12 (skipn 4 data))) eqn:E; cbn [expect rbind].
  - split; [intros [? ?]; discriminate|]. intros (_ & _ & C). exfalso; apply C.
    apply forallb_all0 in E. rewrite firstn_length_le in E; auto. rewrite skipn_length. lia.
  - split; [|eauto]. intros _. repeat split; auto. intros C. rewrite C in E.
    rewrite forallb_repeat0 in E. discriminate.
Qed.

Lemma calldata_decode_panics :
  exists data, byte_list data /\ List.length data = 68%nat /\
    (exists msg, calldata_decode data = Panic msg).
Proof.
  exists ([169; 5; 156; 187] ++ repeat 1 64). split; [|split; [reflexivity|eexists; reflexivity]].
  unfold byte_list. apply Forall_forall. intros x Hx. apply in_app_or in Hx.
  destruct Hx as [Hx|Hx].
  - cbn in Hx. intuition lia.
  - apply repeat_spec in Hx. lia.
Qed.

Lemma is_hex_iff c : is_hex c <-> 48 <= c <= 57 \/ 65 <= c <= 70 \/ 97 <= c <= 102.
Proof.
  unfold is_hex, hex_val. 
  destruct ((48 <=? c) && (c <=? 57)) eqn:E1; [split; [lia|eauto]|].
  destruct ((65 <=? c) && (c <=? 70)) eqn:E2; [split; [lia|eauto]|].
  destruct ((97 <=? c) && (c <=? 102)) eqn:E3; [split; [lia|eauto]|].
  split; [intros [v Hv]; discriminate|lia].
Qed.

Lemma address_of_text_iff' :
  forall s,
    (exists a, is_address a /\ address_of_text s = Some a) <->
    (exists t, s = [48; 120] ++ t /\ List.length t = 40%nat /\
       Forall (fun c => 48 <= c <= 57 \/ 65 <= c <= 70 \/ 97 <= c <= 102) t).
Proof.
  intros s.
  assert (H : (exists a, is_address a /\ address_of_text s = Some a) <->
              (exists a, address_of_text s = Some a)).
  { split; intros (a & Ha); [exists a; tauto|]. exists a. split; auto.
    eapply address_of_text_is_address; eauto. }
  rewrite H, address_of_text_iff. split; intros (t & H1 & H2 & H3); exists t; repeat split; auto;
    eapply Forall_impl; try exact H3; intros c; apply is_hex_iff.
Qed.

Lemma address_words :
  forall w a, List.length w = 32%nat -> byte_list w ->
    (address_of_word w = Some a <->
     firstn 12 w = repeat 0 12 /\ a = of_be (skipn 12 w)) /\
    (address_of_word w = Some a -> is_address a /\ address_to_word a = w) /\
    (is_address a -> address_of_word (address_to_word a) = Some a).
Proof.
  intros w a Hl Hb. split; [|split].
  - unfold address_of_word. destruct (forallb (fun b => b =? 0) (firstn 12 w)) eqn:E.
    + apply forallb_all0 in E. rewrite firstn_length_le in E by lia.
      split; [intros H; split; congruence|]. intros [_ ->]; auto.
    + split; [discriminate|]. intros [H _]. rewrite H, forallb_repeat0 in E. discriminate.
  - intros H. apply address_of_word_iff in H; auto. destruct H; split; auto.
  - apply address_of_to_word.
Qed.

Lemma destination_iff :
  forall s a, validate_address_as_destination s = ROk a <-> address_of_text s = Some a /\ a <> 0.
Proof.
  intros s a. unfold validate_address_as_destination, ADDRESS_ZERO.
  destruct (address_of_text s) as [a'|]; [|split; [discriminate|intros [H _]; discriminate]].
  destruct (N.eqb_spec a' 0) as [->|Hn].
  - split; [discriminate|]. intros [H1 H2]. congruence.
  - split; [injection 1 as <-; auto|]. intros [H _]; congruence.
Qed.

Lemma chain_ids_one_to_one :
  (forall n, network_of_chain_id (chain_id n) = Some n) /\
  (forall id n, network_of_chain_id id = Some n -> chain_id n = id) /\
  (forall n m, chain_id n = chain_id m -> n = m) /\
  (forall id, (forall n, chain_id n <> id) -> network_of_chain_id id = None).
Proof.
  assert (H1 : forall n, network_of_chain_id (chain_id n) = Some n) by (intros []; reflexivity).
  assert (H2 : forall id n, network_of_chain_id id = Some n -> chain_id n = id).
  { intros id n. unfold network_of_chain_id.
    repeat match goal with |- context [if ?a =? ?b then _ else _] =>
      destruct (N.eqb_spec a b) as [->|?]; [injection 1 as <-; reflexivity|] end. discriminate. }
  split; [exact H1|]. split; [exact H2|]. split.
  - intros n m H. pose proof (H1 n) as Hn. rewrite H, H1 in Hn. congruence.
  - intros id H. destruct (network_of_chain_id id) as [n|] eqn:E; auto.
    apply H2 in E. destruct (H n E).
Qed.

Lemma two_providers :
  forall n, NoDup (get_providers n) /\ (2 <= List.length (get_providers n))%nat.
Proof.
  intros []; cbn; (split; [|lia]); repeat constructor; cbn; intuition discriminate.
Qed.
