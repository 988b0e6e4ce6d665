(** * RlpFacts: the RLP encoding is prefix free *)

From Verif Require Import Base Bytes Types Rlp ArithFacts RlpSpec.

#[local] Opaque be_bytes strip0 be_min.

Fixpoint rlp_rect' (P : rlp -> Prop) (Hs : forall l, P (RStr l))
  (Hl : forall l, Forall P l -> P (RList l)) (x : rlp) : P x :=
  match x with
  | RStr l => Hs l
  | RList l => Hl l ((fix go (l : list rlp) : Forall P l :=
      match l with [] => Forall_nil P | y :: l' => Forall_cons y (rlp_rect' P Hs Hl y) (go l') end) l)
  end.

Definition small (n : N) : Prop := n <= U64_MAX.

Lemma len_bytes n : small n -> of_be (strip0 (be_bytes 8 n)) = n.
Proof.
  intros H. rewrite of_be_strip0. apply of_be_be_bytes_small. rewrite u64_pow. unfold small in H. lia.
Qed.
Lemma len_bytes_len n : (List.length (strip0 (be_bytes 8 n)) <= 8)%nat.
Proof. rewrite <- (be_bytes_length 8 n) at 2. apply strip0_length. Qed.
Lemma len_bytes_pos n : small n -> 56 <= n -> (1 <= List.length (strip0 (be_bytes 8 n)))%nat.
Proof.
  intros H Hn. pose proof (len_bytes n H) as E. destruct (strip0 (be_bytes 8 n)); cbn; [|lia].
  cbn in E. lia.
Qed.
Lemma app_inj_len {A} (a b r r' : list A) : List.length a = List.length b -> a ++ r = b ++ r' -> a = b /\ r = r'.
Proof.
  revert b; induction a as [|x a IH]; intros [|y b] Hl He; cbn in *; try discriminate; auto.
  injection He as -> He. destruct (IH b) as [-> ->]; auto.
Qed.

Lemma header_shape base n : small n -> exists b rest, rlp_header base n = b :: rest /\
  base <= b <= base + 63.
Proof.
  intros H. unfold rlp_header. destruct (N.ltb_spec n 56); do 2 eexists; split; try reflexivity; [lia|].
  pose proof (len_bytes_len n). pose proof (len_bytes_pos n H H0). lia.
Qed.

Lemma header_inj base n m r r' : small n -> small m ->
  rlp_header base n ++ r = rlp_header base m ++ r' -> n = m /\ r = r'.
Proof.
  intros Hn Hm. unfold rlp_header.
  pose proof (len_bytes_len n). pose proof (len_bytes_len m).
  destruct (N.ltb_spec n 56); destruct (N.ltb_spec m 56); cbn [app]; intros He; injection He as Hh Ht.
  - split; [lia|auto].
  - pose proof (len_bytes_pos m Hm). lia.
  - pose proof (len_bytes_pos n Hn). lia.
  - assert (Hl : List.length (strip0 (be_bytes 8 n)) = List.length (strip0 (be_bytes 8 m))) by lia.
    destruct (app_inj_len _ _ _ _ Hl Ht) as [He ->]. split; [|auto].
    rewrite <- (len_bytes n Hn), He. apply len_bytes; auto.
Qed.

Lemma string_shape l : small (N.of_nat (List.length l)) -> exists b rest, rlp_string l = b :: rest /\ b < 192.
Proof.
  intros H. unfold rlp_string. destruct l as [|b [|c l]].
  - exists 128, []. split; [reflexivity|lia].
  - destruct (N.ltb_spec b 128); do 2 eexists; split; try reflexivity; lia.
  - destruct (header_shape 128 (N.of_nat (List.length (b :: c :: l))) H) as (x & rest & E & Hx).
    rewrite E. do 2 eexists. split; [reflexivity|lia].
Qed.
Lemma string_inj l l' r r' : small (N.of_nat (List.length l)) -> small (N.of_nat (List.length l')) ->
  rlp_string l ++ r = rlp_string l' ++ r' -> l = l' /\ r = r'.
Proof.
  assert (Hfull : forall l, (exists b, l = [b] /\ b < 128) \/
            rlp_string l = rlp_header 128 (N.of_nat (List.length l)) ++ l).
  { intros [|b [|c x]]; auto. cbn. destruct (N.ltb_spec b 128); eauto. }
  assert (Hone : forall b, b < 128 -> rlp_string [b] = [b]).
  { intros b Hb. cbn. destruct (N.ltb_spec b 128); auto; lia. }
  intros Hs Hs' He.
  destruct (Hfull l) as [(b & -> & Hb)|E]; destruct (Hfull l') as [(b' & -> & Hb')|E'].
  - rewrite !Hone in He by assumption. injection He as -> ->. auto.
  - rewrite (Hone b Hb), E' in He. destruct (header_shape 128 _ Hs') as (x & rest & Eh & Hx).
    rewrite Eh in He. injection He as Hc _. lia.
  - rewrite (Hone b' Hb'), E in He. destruct (header_shape 128 _ Hs) as (x & rest & Eh & Hx).
    rewrite Eh in He. injection He as Hc _. lia.
  - rewrite E, E', <- !app_assoc in He. apply header_inj in He as [Hl He]; auto.
    apply app_inj_len in He; auto. lia.
Qed.

Lemma encode_length x :
  match x with RStr l => (List.length l <= List.length (rlp_encode x))%nat
  | RList l => (List.length (List.concat (map rlp_encode l)) <= List.length (rlp_encode x))%nat end.
Proof.
  destruct x as [l|l]; cbn [rlp_encode]; unfold rlp_list, rlp_string.
  - destruct l as [|b [|c l]]; rewrite ?app_length; try (cbn; lia).
    destruct (b <? 128); rewrite ?app_length; cbn; lia.
  - rewrite app_length. lia.
Qed.

Lemma encode_nonempty x r : small (N.of_nat (List.length (rlp_encode x))) -> rlp_encode x ++ r <> [].
Proof.
  intros Hs. pose proof (encode_length x) as Hl. destruct x as [l|l]; cbn [rlp_encode] in *.
  - destruct (string_shape l) as (b & rest & E & _); [unfold small in *; lia|]. rewrite E. discriminate.
  - unfold rlp_list in *. destruct (header_shape 192 (N.of_nat (List.length (List.concat (map rlp_encode l))))) as (b & rest & E & _);
      [unfold small in *; lia|]. rewrite E. discriminate.
Qed.

Lemma encode_inj x : forall y r r',
  small (N.of_nat (List.length (rlp_encode x))) -> small (N.of_nat (List.length (rlp_encode y))) ->
  rlp_encode x ++ r = rlp_encode y ++ r' -> x = y /\ r = r'.
Proof.
  induction x as [l|l IH] using rlp_rect'; intros y r r' Hx Hy He.
  - pose proof (encode_length (RStr l)) as Lx. pose proof (encode_length y) as Ly.
    destruct y as [l'|l']; cbn [rlp_encode] in *.
    + apply string_inj in He; [|unfold small in *; lia..]. destruct He as [-> ->]. auto.
    + destruct (string_shape l) as (b & rest & E & Hb); [unfold small in *; lia|].
      unfold rlp_list in *. destruct (header_shape 192 (N.of_nat (List.length (List.concat (map rlp_encode l')))))
        as (b' & rest' & E' & Hb'); [unfold small in *; lia|].
      rewrite E, E' in He. injection He as Hc _. lia.
  - pose proof (encode_length (RList l)) as Lx. pose proof (encode_length y) as Ly.
    destruct y as [l'|l']; cbn [rlp_encode] in *.
    + destruct (string_shape l') as (b & rest & E & Hb); [unfold small in *; lia|].
      unfold rlp_list in *. destruct (header_shape 192 (N.of_nat (List.length (List.concat (map rlp_encode l)))))
        as (b' & rest' & E' & Hb'); [unfold small in *; lia|].
      rewrite E, E' in He. injection He as Hc _. lia.
    + unfold rlp_list in *. rewrite <- !app_assoc in He.
      apply header_inj in He as [Hl He]; [|unfold small in *; lia..].
      apply app_inj_len in He; [|lia]. destruct He as [He ->].
      assert (Sx : small (N.of_nat (List.length (List.concat (map rlp_encode l))))) by (unfold small in *; lia).
      assert (Sy : small (N.of_nat (List.length (List.concat (map rlp_encode l'))))) by (unfold small in *; lia).
      clear - IH He Sx Sy. split; [|reflexivity]. f_equal. revert l' He Sy.
      induction IH as [|a l Ha _ IHl]; intros [|a' l'] He Sy; cbn [map List.concat] in *; auto.
      * exfalso. symmetry in He. revert He. apply encode_nonempty. rewrite app_length in Sy. unfold small in *; lia.
      * exfalso. revert He. apply encode_nonempty. rewrite app_length in Sx. unfold small in *; lia.
      * rewrite app_length in Sx, Sy. apply Ha in He as [-> He]; [|unfold small in *; lia..].
        f_equal. apply IHl; auto; unfold small in *; lia.
Qed.

Lemma encode_one_one x y :
  small (N.of_nat (List.length (rlp_encode x))) -> small (N.of_nat (List.length (rlp_encode y))) ->
  rlp_encode x = rlp_encode y -> x = y.
Proof.
  intros Hx Hy He. eapply (encode_inj x y [] []); auto. rewrite !app_nil_r. exact He.
Qed.

(** ** Transactions *)

Lemma u64_u256 n : is_u64 n -> is_u256 n.
Proof. unfold is_u64, is_u256. intros H. eapply N.le_trans; [exact H|]. vm_compute. discriminate. Qed.

Lemma str_inj a b : RStr a = RStr b -> a = b.
Proof. congruence. Qed.
Lemma lst_inj a b : RList a = RList b -> a = b.
Proof. congruence. Qed.
Lemma cons_inj {A} (x y : A) l m : x :: l = y :: m -> x = y /\ l = m.
Proof. intros H. injection H. auto. Qed.

Lemma access_inj a : forall b,
  Forall (fun i => is_address (fst i) /\ Forall is_u256 (snd i)) a ->
  Forall (fun i => is_address (fst i) /\ Forall is_u256 (snd i)) b ->
  map rlp_access_item a = map rlp_access_item b -> a = b.
Proof.
  induction a as [|[x k] a IH]; intros [|[y k'] b] Ha Hb He; cbn [map] in He; try discriminate; auto.
  apply cons_inj in He as [H0 H3]. apply lst_inj in H0. cbn [fst snd] in H0.
  apply cons_inj in H0 as [H1 H0]. apply cons_inj in H0 as [H2 _]. apply str_inj in H1. apply lst_inj in H2.
  inversion_clear Ha as [|? ? [A1 A2] A3]. inversion_clear Hb as [|? ? [B1 B2] B3].
  cbn [fst snd] in *. f_equal; [|auto].
  apply be_bytes_inj in H1; [|rewrite addr_pow; assumption..]. subst y. f_equal.
  clear - H2 A2 B2. revert k' H2 B2. induction k as [|u k IH]; intros [|v k'] H2 B2; cbn [map] in H2; try discriminate; auto.
  apply cons_inj in H2 as [H2 H3]. apply str_inj in H2. inversion_clear A2. inversion_clear B2.
  f_equal; [|auto]. apply be_bytes_inj in H2; auto; rewrite u256_pow; unfold is_u256 in *; lia.
Qed.

Lemma inner_inj t t' : tx_typed t -> tx_typed t' -> rlp_inner t = rlp_inner t' -> t = t'.
Proof.
  intros (A1 & A2 & A3 & A4 & A5 & A6 & A7 & A8) (B1 & B2 & B3 & B4 & B5 & B6 & B7 & B8) He.
  destruct t as [t1 t2 t3 t4 t5 t6 t7 t8 t9], t' as [u1 u2 u3 u4 u5 u6 u7 u8 u9].
  unfold rlp_inner, rlp_u256, rlp_access_list in He.
  cbn [tx_chain_id tx_nonce tx_max_priority_fee_per_gas tx_max_fee_per_gas tx_gas_limit tx_destination
       tx_amount tx_data tx_access_list] in *.
  apply cons_inj in He as [H1 He]. apply cons_inj in He as [H2 He]. apply cons_inj in He as [H3 He].
  apply cons_inj in He as [H4 He]. apply cons_inj in He as [H5 He]. apply cons_inj in He as [H6 He].
  apply cons_inj in He as [H7 He]. apply cons_inj in He as [H8 He]. apply cons_inj in He as [H9 He].
  apply str_inj in H1, H2, H3, H4, H5, H6, H7, H8. apply lst_inj in H9.
  apply be_min_inj in H1, H2, H3, H4, H5, H7; auto using u64_u256.
  apply be_bytes_inj in H6; [|rewrite addr_pow; assumption..].
  apply access_inj in H9; auto. subst. reflexivity.
Qed.
Lemma sig_inj s s' : sig_typed s -> sig_typed s' -> rlp_signature s = rlp_signature s' -> s = s'.
Proof.
  intros (A1 & A2) (B1 & B2) He. destruct s as [b r q], s' as [b' r' q']. unfold rlp_signature, rlp_u256 in He.
  cbn [sg_y_parity sg_r sg_s] in *. 
  apply cons_inj in He as [H1 He]. apply cons_inj in He as [H2 He]. apply cons_inj in He as [H3 He].
  apply str_inj in H1, H2, H3. apply be_min_inj in H2, H3; auto. subst.
  apply be_min_inj in H1; [destruct b, b'; auto; discriminate|..]; unfold is_u256;
    destruct b, b'; vm_compute; discriminate.
Qed.

Lemma payload_inj t t' : tx_typed t -> tx_typed t' ->
  fits_memory (signing_payload t) -> fits_memory (signing_payload t') ->
  signing_payload t = signing_payload t' -> t = t'.
Proof.
  intros Ht Ht' Hf Hf' He. unfold signing_payload, fits_memory in *. cbn [List.length] in Hf, Hf'.
  apply (f_equal (@tl N)) in He. cbn [tl] in He. apply encode_one_one in He; [|unfold small; lia..].
  apply (f_equal (fun x => match x with RList l => l | RStr _ => [] end)) in He. cbv beta iota in He.
  apply inner_inj; auto.
Qed.
Lemma raw_inj t s t' s' : tx_typed t -> tx_typed t' -> sig_typed s -> sig_typed s' ->
  fits_memory (raw_bytes t s) -> fits_memory (raw_bytes t' s') ->
  raw_bytes t s = raw_bytes t' s' -> t = t' /\ s = s'.
Proof.
  intros Ht Ht' Hs Hs' Hf Hf' He. unfold raw_bytes, fits_memory in *. cbn [List.length] in Hf, Hf'.
  apply (f_equal (@tl N)) in He. cbn [tl] in He. apply encode_one_one in He; [|unfold small; lia..].
  apply (f_equal (fun x => match x with RList l => l | RStr _ => [] end)) in He. cbv beta iota in He.
  apply app_inj_len in He; [|reflexivity]. destruct He. split; [apply inner_inj|apply sig_inj]; auto.
Qed.
Lemma payload_not_raw t t' s' :
  fits_memory (signing_payload t) -> fits_memory (raw_bytes t' s') -> signing_payload t <> raw_bytes t' s'.
Proof.
  intros Hf Hf' He. unfold raw_bytes, signing_payload, fits_memory in *. cbn [List.length] in Hf, Hf'.
  apply (f_equal (@tl N)) in He. cbn [tl] in He. apply encode_one_one in He; [|unfold small; lia..].
  apply (f_equal (fun x => match x with RList l => List.length l | RStr _ => 0%nat end)) in He. discriminate.
Qed.
