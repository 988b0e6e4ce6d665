(** * NetFacts: the network reads back what the minter encodes, and only that *)

From Verif Require Import Base Bytes Types Rlp ArithFacts RlpSpec RlpFacts Sign NetSpec.

#[local] Opaque be_bytes strip0 be_min.

Lemma cut_app a r : cut (N.of_nat (List.length a)) (a ++ r) = Some (a, r).
Proof.
  unfold cut. rewrite app_length, Nat2N.id. destruct (N.leb_spec (N.of_nat (List.length a)) (N.of_nat (List.length a + List.length r))); [|lia].
  rewrite firstn_app, firstn_all, Nat.sub_diag, skipn_app, skipn_all, Nat.sub_diag. cbn. rewrite app_nil_r. reflexivity.
Qed.
Lemma cut_eq n a r : N.of_nat (List.length a) = n -> cut n (a ++ r) = Some (a, r).
Proof. intros <-. apply cut_app. Qed.

Lemma cut_long_app n a r : small n -> 56 <= n -> N.of_nat (List.length a) = n ->
  cut_long (N.of_nat (List.length (strip0 (be_bytes 8 n)))) (strip0 (be_bytes 8 n) ++ a ++ r) = Some (a, r).
Proof.
  intros Hs Hn Ha. unfold cut_long. rewrite cut_app. pose proof (strip0_head (be_bytes 8 n)) as Hh.
  pose proof (len_bytes n Hs) as E.
  assert (H : (if of_be (strip0 (be_bytes 8 n)) <=? 55 then None else cut (of_be (strip0 (be_bytes 8 n))) (a ++ r)) = Some (a, r)).
  { rewrite E. destruct (N.leb_spec n 55); [lia|]. apply cut_eq; auto. }
  destruct (strip0 (be_bytes 8 n)) as [|[|p] l]; auto. destruct Hh.
Qed.

Definition item_of (x : rlp) : Item :=
  match x with RStr l => IStr l | RList l => IList (List.concat (map rlp_encode l)) end.

Ltac below :=
  repeat match goal with
  | |- context [?a <? ?b] => destruct (N.ltb_spec a b); [|lia]
  | |- context [?a <? ?b] => destruct (N.ltb_spec a b); [lia|]
  end.

Lemma read_item_app x r : small (N.of_nat (List.length (rlp_encode x))) ->
  exists b rest, rlp_encode x ++ r = b :: rest /\ read_item b rest = Some (item_of x, r).
Proof.
  intros Hs. pose proof (encode_length x) as Hl. destruct x as [l|l]; cbn [rlp_encode item_of] in *.
  - assert (Sl : small (N.of_nat (List.length l))) by (unfold small in *; lia). clear Hs Hl.
    assert (Hlong : (forall c, l <> [c]) ->
      exists b rest, (rlp_header 128 (N.of_nat (List.length l)) ++ l) ++ r = b :: rest /\ read_item b rest = Some (IStr l, r)).
    { intros Hn. unfold rlp_header. destruct (N.ltb_spec (N.of_nat (List.length l)) 56) as [H|H]; cbn [app]; do 2 eexists; (split; [reflexivity|]).
      - unfold read_item. below. rewrite (cut_eq _ l r) by lia. destruct l as [|c [|d l]]; auto. destruct (Hn c); auto.
      - pose proof (len_bytes_len (N.of_nat (List.length l))). pose proof (len_bytes_pos _ Sl H).
        unfold read_item. below.
        replace (128 + 55 + N.of_nat (List.length (strip0 (be_bytes 8 (N.of_nat (List.length l))))) - 183)
          with (N.of_nat (List.length (strip0 (be_bytes 8 (N.of_nat (List.length l)))))) by lia.
        rewrite <- app_assoc, cut_long_app; auto. }
    unfold rlp_string. destruct l as [|b [|c l]]; try (apply Hlong; discriminate).
    clear Hlong. destruct (N.ltb_spec b 128) as [H|H].
    + exists b, r. split; [reflexivity|]. unfold read_item. below. reflexivity.
    + exists 129, (b :: r). split; [reflexivity|]. unfold read_item. cbn [N.ltb N.compare Pos.compare Pos.compare_cont].
      change (129 - 128) with 1. pose proof (cut_eq 1 [b] r eq_refl) as Ec. cbn [app] in Ec. rewrite Ec. destruct (N.ltb_spec b 128); [lia|]. reflexivity.
  - set (p := List.concat (map rlp_encode l)) in *.
    assert (Sl : small (N.of_nat (List.length p))) by (unfold small in *; lia). clear Hs Hl.
    unfold rlp_list, rlp_header. destruct (N.ltb_spec (N.of_nat (List.length p)) 56) as [H|H]; cbn [app]; do 2 eexists; (split; [reflexivity|]).
    + unfold read_item. below. rewrite (cut_eq _ p r) by lia. reflexivity.
    + pose proof (len_bytes_len (N.of_nat (List.length p))). pose proof (len_bytes_pos _ Sl H).
      unfold read_item. below.
      replace (192 + 55 + N.of_nat (List.length (strip0 (be_bytes 8 (N.of_nat (List.length p))))) - 247)
        with (N.of_nat (List.length (strip0 (be_bytes 8 (N.of_nat (List.length p)))))) by lia.
      rewrite <- app_assoc, cut_long_app; auto.
Qed.

Lemma list_longer l : (List.length (List.concat (map rlp_encode l)) < List.length (rlp_encode (RList l)))%nat.
Proof.
  cbn [rlp_encode]. unfold rlp_list, rlp_header. rewrite app_length. destruct (_ <? 56); cbn [List.length]; lia.
Qed.

Lemma read_items_app f : forall items,
  (List.length (List.concat (map rlp_encode items)) <= f)%nat ->
  small (N.of_nat (List.length (List.concat (map rlp_encode items)))) ->
  read_items f (List.concat (map rlp_encode items)) = Some items.
Proof.
  induction f as [|f IH]; intros [|x items] Hf Hs; try reflexivity; cbn [map List.concat] in *; rewrite app_length in *.
  - exfalso. assert (Hx : rlp_encode x ++ [] <> []) by (apply encode_nonempty; unfold small in *; lia).
    rewrite app_nil_r in Hx. destruct (rlp_encode x); [auto|cbn in Hf; lia].
  - destruct (read_item_app x (List.concat (map rlp_encode items))) as (b & rest & E & H); [unfold small in *; lia|].
    assert (Hx : rlp_encode x ++ [] <> []) by (apply encode_nonempty; unfold small in *; lia).
    rewrite app_nil_r in Hx. assert (Hp : (1 <= List.length (rlp_encode x))%nat) by (destruct (rlp_encode x); [congruence|cbn; lia]).
    rewrite E. cbn [read_items]. rewrite H. destruct x as [l|l]; cbn [item_of].
    + rewrite IH by (unfold small in *; lia). reflexivity.
    + pose proof (list_longer l). rewrite !IH by (unfold small in *; lia). reflexivity.
Qed.

Lemma read_list_encode items : fits_memory (2 :: rlp_encode (RList items)) ->
  read_list (2 :: rlp_encode (RList items)) = Some items.
Proof.
  intros H. unfold read_list.
  pose proof (read_items_app (List.length (rlp_encode (RList items))) [RList items]) as E.
  cbn [map List.concat] in E. rewrite app_nil_r in E. rewrite E; auto.
  unfold fits_memory in H. cbn [List.length] in H. unfold small. lia.
Qed.

(** ** Fields *)
Lemma read_num_min n : is_u256 n -> read_num (be_min n) = Some n.
Proof.
  intros H. unfold read_num. pose proof (strip0_head (be_bytes 32 n)) as Hh. change (strip0 (be_bytes 32 n)) with (be_min n) in Hh.
  assert (E : (if (List.length (be_min n) <=? 32)%nat then Some (of_be (be_min n)) else None) = Some n).
  { rewrite (proj2 (Nat.leb_le _ _) (be_min_length n)), of_be_be_min; auto. }
  destruct (be_min n) as [|[|p] l]; auto. destruct Hh.
Qed.
Lemma read_fixed_bytes k n : n < 256 ^ N.of_nat k -> read_fixed k (be_bytes k n) = Some n.
Proof. intros H. unfold read_fixed. rewrite be_bytes_length, Nat.eqb_refl, of_be_be_bytes_small; auto. Qed.
Lemma read_address a : is_address a -> read_fixed 20 (be_bytes 20 a) = Some a.
Proof. intros H. apply read_fixed_bytes. rewrite addr_pow. exact H. Qed.
Lemma read_all_map {A B C} (f : A -> B) (g : B -> option C) (h : A -> C) l :
  Forall (fun x => g (f x) = Some (h x)) l -> read_all g (map f l) = Some (map h l).
Proof. induction 1 as [|x l Hx _ IH]; cbn; auto. rewrite Hx, IH. reflexivity. Qed.
Lemma read_access_list l : Forall (fun i => is_address (fst i) /\ Forall is_u256 (snd i)) l ->
  read_all read_access (map rlp_access_item l) = Some l.
Proof.
  intros H. rewrite (read_all_map rlp_access_item read_access (fun x => x)), map_id; auto.
  eapply Forall_impl; [|exact H]. intros [a ks] [Ha Hk]. cbn [fst snd] in *. unfold read_access, rlp_access_item. cbn [fst snd].
  rewrite read_address by auto. rewrite (read_all_map _ read_key (fun x => x)), map_id; auto.
  eapply Forall_impl; [|exact Hk]. intros k H'. cbn [read_key]. apply read_fixed_bytes. rewrite u256_pow. unfold is_u256 in H'. lia.
Qed.
Lemma read_fields_inner t rest : tx_typed t -> read_fields (rlp_inner t ++ rest) = Some (t, rest).
Proof.
  intros (H1 & H2 & H3 & H4 & H5 & H6 & H7 & H8). destruct t; cbn in *.
  unfold rlp_inner, rlp_u256, rlp_access_list. cbn [app read_fields Types.tx_chain_id Types.tx_nonce
    Types.tx_max_priority_fee_per_gas Types.tx_max_fee_per_gas Types.tx_gas_limit Types.tx_destination
    Types.tx_amount Types.tx_data Types.tx_access_list].
  rewrite !read_num_min by auto using u64_u256. rewrite read_address, read_access_list by auto. reflexivity.
Qed.

Lemma read_raw_bytes t s : tx_typed t -> sig_typed s -> fits_memory (raw_bytes t s) -> read_raw (raw_bytes t s) = Some (t, s).
Proof.
  intros Ht [Hr Hs] Hm. unfold read_raw, raw_bytes, EIP1559_TX_ID in *. rewrite read_list_encode by auto.
  rewrite read_fields_inner by auto. destruct s as [y r s']. unfold rlp_signature, rlp_u256. cbn in *.
  rewrite !read_num_min by auto. destruct y; reflexivity.
Qed.
Lemma read_unsigned_payload t : tx_typed t -> fits_memory (signing_payload t) -> read_unsigned (signing_payload t) = Some t.
Proof.
  intros Ht Hm. unfold read_unsigned, signing_payload, EIP1559_TX_ID in *. rewrite read_list_encode by auto.
  rewrite <- (app_nil_r (rlp_inner t)). rewrite read_fields_inner by auto. reflexivity.
Qed.

(** ** The reader accepts nothing else *)
Lemma strip0_zeros m l : strip0 (repeat 0 m ++ l) = strip0 l.
Proof. induction m as [|m IH]; auto. Qed.
Lemma strip0_same l : match l with 0 :: _ => False | _ => True end -> strip0 l = l.
Proof. destruct l as [|[|p] l]; auto. intros []. Qed.
Lemma of_be_zeros m l : of_be (repeat 0 m ++ l) = of_be l.
Proof. induction m as [|m IH]; auto. Qed.
Lemma strip_be k l : byte_list l -> (List.length l <= k)%nat -> match l with 0 :: _ => False | _ => True end ->
  strip0 (be_bytes k (of_be l)) = l.
Proof.
  intros Hb Hk Hz. pose proof (be_bytes_of_be (repeat 0 (k - List.length l) ++ l)) as E.
  rewrite app_length, repeat_length, of_be_zeros in E. replace (k - List.length l + List.length l)%nat with k in E by lia.
  rewrite E, strip0_zeros; [apply strip0_same; auto|]. apply Forall_app; split; auto.
  apply Forall_forall. intros x Hx. apply repeat_spec in Hx. subst. lia.
Qed.

Lemma cut_inv n l a r : cut n l = Some (a, r) -> l = a ++ r /\ N.of_nat (List.length a) = n.
Proof.
  unfold cut. destruct (N.leb_spec n (N.of_nat (List.length l))); [|discriminate]. intros E. injection E as <- <-.
  split; [symmetry; apply firstn_skipn|]. rewrite firstn_length. lia.
Qed.
Lemma cut_long_inv k l a r : k <= 8 -> byte_list l -> cut_long k l = Some (a, r) ->
  56 <= N.of_nat (List.length a) /\
  exists lb, l = lb ++ a ++ r /\ N.of_nat (List.length lb) = k /\ lb = strip0 (be_bytes 8 (N.of_nat (List.length a))).
Proof.
  intros Hk Hb H. unfold cut_long in H. destruct (cut k l) as [[lb rest]|] eqn:E; [|discriminate].
  apply cut_inv in E as [-> El]. apply Forall_app in Hb as [Hb _].
  assert (H' : match lb with 0 :: _ => False | _ => True end /\
    (if of_be lb <=? 55 then None else cut (of_be lb) rest) = Some (a, r)).
  { destruct lb as [|[|p] lb]; auto. discriminate. }
  clear H. destruct H' as [Hz H]. destruct (N.leb_spec (of_be lb) 55); [discriminate|].
  apply cut_inv in H as [-> Ha]. split; [lia|]. exists lb. split; auto. split; auto.
  rewrite Ha. symmetry. apply strip_be; auto. lia.
Qed.

Definition item_bytes (i : Item) : list N := match i with IStr l => rlp_string l | IList p => rlp_list p end.
Lemma string_long l : (forall c, l = [c] -> 128 <= c) -> rlp_string l = rlp_header 128 (N.of_nat (List.length l)) ++ l.
Proof.
  intros H. unfold rlp_string. destruct l as [|c [|d l]]; auto. destruct (N.ltb_spec c 128); auto.
  specialize (H c eq_refl). lia.
Qed.
Lemma read_item_inv b l i r : byte_list l -> read_item b l = Some (i, r) -> b :: l = item_bytes i ++ r.
Proof.
  intros Hb H. unfold read_item in H.
  destruct (N.ltb_spec b 128).
  { injection H as <- <-. cbn [item_bytes rlp_string]. destruct (N.ltb_spec b 128); [reflexivity|lia]. }
  destruct (N.ltb_spec b 184).
  { destruct (cut (b - 128) l) as [[a r']|] eqn:E; [|discriminate]. apply cut_inv in E as [-> Ea].
    assert (H' : (forall c, a = [c] -> 128 <= c) /\ i = IStr a /\ r = r').
    { destruct a as [|c [|d a]]; try (cbn in H; injection H as <- <-; split; [discriminate|auto]).
      destruct (N.ltb_spec c 128); [discriminate|]. cbn in H. injection H as <- <-. split; auto.
      intros c' Ec. injection Ec as <-. auto. }
    destruct H' as (Hc & -> & ->). cbn [item_bytes]. rewrite string_long by auto. unfold rlp_header.
    destruct (N.ltb_spec (N.of_nat (List.length a)) 56); [|lia]. cbn [app]. f_equal. lia. }
  destruct (N.ltb_spec b 192).
  { destruct (cut_long (b - 183) l) as [[a r']|] eqn:E; [|discriminate]. cbn in H. injection H as <- <-.
    apply cut_long_inv in E as (Ha & lb & -> & El & Eb); auto; [|lia]. cbn [item_bytes fst snd].
    rewrite string_long by (intros c ->; cbn in Ha; lia). unfold rlp_header.
    destruct (N.ltb_spec (N.of_nat (List.length a)) 56); [lia|]. rewrite <- Eb. cbn [app]. rewrite <- app_assoc. f_equal. lia. }
  destruct (N.ltb_spec b 248).
  { destruct (cut (b - 192) l) as [[a r']|] eqn:E; [|discriminate]. cbn in H. injection H as <- <-.
    apply cut_inv in E as [-> Ea]. cbn [item_bytes fst snd]. unfold rlp_list, rlp_header.
    destruct (N.ltb_spec (N.of_nat (List.length a)) 56); [|lia]. cbn [app]. f_equal. lia. }
  destruct (N.ltb_spec b 256); [|discriminate].
  destruct (cut_long (b - 247) l) as [[a r']|] eqn:E; [|discriminate]. cbn in H. injection H as <- <-.
  apply cut_long_inv in E as (Ha & lb & -> & El & Eb); auto; [|lia]. cbn [item_bytes fst snd].
  unfold rlp_list, rlp_header. destruct (N.ltb_spec (N.of_nat (List.length a)) 56); [lia|].
  rewrite <- Eb. cbn [app]. rewrite <- app_assoc. f_equal. lia.
Qed.

Lemma item_content i r : byte_list (item_bytes i ++ r) -> byte_list (match i with IStr l => l | IList p => p end) /\ byte_list r.
Proof.
  intros H. apply Forall_app in H as [H Hr]. split; auto. destruct i as [l|p]; cbn [item_bytes] in H.
  - unfold rlp_string in H. destruct l as [|c [|d l]]; try (apply Forall_app in H; tauto).
    destruct (c <? 128); auto. apply Forall_app in H. tauto.
  - apply Forall_app in H. tauto.
Qed.

Lemma read_items_inv f : forall l items, byte_list l -> read_items f l = Some items -> l = List.concat (map rlp_encode items).
Proof.
  induction f as [|f IH]; intros [|b l] items Hb H; cbn [read_items] in H; try (injection H as <-; reflexivity); try discriminate.
  destruct (read_item b l) as [[i r]|] eqn:E; [|discriminate].
  apply read_item_inv in E; [|inversion Hb; auto]. rewrite E in *. apply item_content in Hb as [Hi Hr].
  destruct i as [x|x].
  - destruct (read_items f r) as [y|] eqn:Er; [|discriminate]. cbn in H. injection H as <-.
    cbn [map List.concat rlp_encode item_bytes]. f_equal. auto.
  - destruct (read_items f x) as [y|] eqn:Ex; [|discriminate]. destruct (read_items f r) as [z|] eqn:Er; [|discriminate].
    injection H as <-. cbn [map List.concat rlp_encode item_bytes]. apply IH in Ex; auto. apply IH in Er; auto. rewrite <- Ex, <- Er. reflexivity.
Qed.

Definition bytes_in (x : rlp) : Prop := byte_list (rlp_encode x).
Lemma bytes_str l : bytes_in (RStr l) -> byte_list l.
Proof. intros H. unfold bytes_in in H. cbn [rlp_encode] in H. apply (item_content (IStr l) []). cbn [item_bytes]. rewrite app_nil_r. auto. Qed.
Lemma bytes_concat l : byte_list (List.concat (map rlp_encode l)) -> Forall bytes_in l.
Proof.
  induction l as [|x l IH]; cbn [map List.concat]; intros H; constructor; apply Forall_app in H as [H1 H2]; auto.
Qed.
Lemma bytes_list l : bytes_in (RList l) -> Forall bytes_in l.
Proof.
  intros H. unfold bytes_in in H. cbn [rlp_encode] in H. apply bytes_concat.
  apply (item_content (IList _) []). cbn [item_bytes]. rewrite app_nil_r. auto.
Qed.

Lemma read_list_inv raw items : byte_list raw -> read_list raw = Some items ->
  raw = 2 :: rlp_encode (RList items) /\ Forall bytes_in items.
Proof.
  intros Hb H. unfold read_list in H. destruct raw as [|[|[p|p|]] l]; try discriminate. destruct p; try discriminate.
  destruct (read_items (List.length l) l) as [[|[x|x] [|y z]]|] eqn:E; try discriminate. injection H as <-.
  inversion Hb as [|? ? _ Hb']; subst. pose proof (read_items_inv _ _ _ Hb' E) as E'. cbn [map List.concat] in E'. rewrite app_nil_r in E'.
  subst l. split; auto. apply bytes_list. exact Hb'.
Qed.

Lemma read_num_inv l n : bytes_in (RStr l) -> read_num l = Some n -> RStr l = rlp_u256 n.
Proof.
  intros Hb H. apply bytes_str in Hb. unfold read_num in H. unfold rlp_u256.
  assert (H' : match l with 0 :: _ => False | _ => True end /\ (if (List.length l <=? 32)%nat then Some (of_be l) else None) = Some n)
    by (destruct l as [|[|p] l]; auto; discriminate).
  clear H. destruct H' as [Hz H]. destruct (Nat.leb_spec (List.length l) 32); [|discriminate]. injection H as <-.
  f_equal. symmetry. change (be_min (of_be l)) with (strip0 (be_bytes 32 (of_be l))). apply strip_be; auto.
Qed.
Lemma read_fixed_inv k l n : bytes_in (RStr l) -> read_fixed k l = Some n -> l = be_bytes k n.
Proof.
  intros Hb H. apply bytes_str in Hb. unfold read_fixed in H. destruct (Nat.eqb_spec (List.length l) k); [|discriminate]. injection H as <-. subst k.
  symmetry. apply be_bytes_of_be; auto.
Qed.
Lemma read_all_inv {A B} (f : A -> option B) (g : B -> A) l : forall r, (forall x y, In x l -> f x = Some y -> x = g y) ->
  read_all f l = Some r -> l = map g r.
Proof.
  induction l as [|x l IH]; cbn; intros r Hf H; [injection H as <-; reflexivity|].
  destruct (f x) as [y|] eqn:E; [|discriminate]. destruct (read_all f l) as [r'|] eqn:E'; [|discriminate]. injection H as <-.
  cbn. f_equal; auto.
Qed.
Lemma read_access_inv x i : bytes_in x -> read_access x = Some i -> x = rlp_access_item i.
Proof.
  intros Hb H. unfold read_access in H. destruct x as [|[|[a|] [|[|ks] [|]]]]; try discriminate.
  apply bytes_list in Hb. inversion Hb as [|? ? Ha Hb1]; subst. inversion Hb1 as [|? ? Hk _]; subst. apply bytes_list in Hk.
  destruct (read_fixed 20 a) as [a'|] eqn:Ea; [|discriminate]. destruct (read_all read_key ks) as [ks'|] eqn:Ek; [|discriminate].
  injection H as <-. unfold rlp_access_item. cbn [fst snd]. apply read_fixed_inv in Ea; auto. rewrite <- Ea.
  rewrite (read_all_inv read_key (fun k => RStr (be_bytes 32 k)) ks ks'); auto.
  intros y k Hin Hy. rewrite Forall_forall in Hk. specialize (Hk y Hin). destruct y as [y|]; [|discriminate]. f_equal. apply read_fixed_inv; auto.
Qed.
Lemma read_fields_inv l t rest : Forall bytes_in l -> read_fields l = Some (t, rest) -> l = rlp_inner t ++ rest.
Proof.
  intros Hb H. unfold read_fields in H.
  do 9 (destruct l as [|[?f|?f] l]; try discriminate; inversion Hb as [|? ? ?Hf Hb']; subst; clear Hb; rename Hb' into Hb).
  repeat match type of H with match ?x with _ => _ end = _ => destruct x eqn:?; try discriminate end.
  injection H as <- <-.
  unfold rlp_inner, rlp_access_list. cbn [app Types.tx_chain_id Types.tx_nonce
    Types.tx_max_priority_fee_per_gas Types.tx_max_fee_per_gas Types.tx_gas_limit Types.tx_destination
    Types.tx_amount Types.tx_data Types.tx_access_list].
  repeat match goal with
  | [Hb : bytes_in (RStr ?l), H : read_num ?l = Some _ |- _] => apply read_num_inv in H; [|exact Hb]; rewrite H; clear Hb
  | [Hb : bytes_in (RStr ?l), H : read_fixed 20 ?l = Some _ |- _] => apply read_fixed_inv in H; [|exact Hb]; rewrite <- H; clear Hb
  end.
  match goal with [Hb : bytes_in (RList ?l), H : read_all read_access ?l = Some ?r |- _] =>
    rewrite <- (read_all_inv read_access rlp_access_item l r); [reflexivity| |exact H];
    apply bytes_list in Hb; rewrite Forall_forall in Hb; intros x y Hx; apply read_access_inv; auto end.
Qed.

Lemma read_unsigned_inv p t : byte_list p -> read_unsigned p = Some t -> p = signing_payload t.
Proof.
  intros Hb H. unfold read_unsigned in H. destruct (read_list p) as [items|] eqn:E; [|discriminate].
  apply read_list_inv in E as [-> Hi]; auto. destruct (read_fields items) as [[t' [|]]|] eqn:E; try discriminate. injection H as <-.
  apply read_fields_inv in E; auto. rewrite app_nil_r in E. subst. reflexivity.
Qed.
Lemma read_raw_inv raw t sg : byte_list raw -> read_raw raw = Some (t, sg) -> raw = raw_bytes t sg.
Proof.
  intros Hb H. unfold read_raw in H. destruct (read_list raw) as [items|] eqn:E; [|discriminate].
  apply read_list_inv in E as [-> Hi]; auto.
  destruct (read_fields items) as [[t' [|[y|] [|[r|] [|[s|] [|]]]]]|] eqn:E; try discriminate.
  apply read_fields_inv in E; auto. subst items. apply Forall_app in Hi as [_ Hi].
  inversion Hi as [|? ? Hy Hi1]; subst. inversion Hi1 as [|? ? Hr Hi2]; subst. inversion Hi2 as [|? ? Hs _]; subst.
  destruct (read_bool y) as [y'|] eqn:Ey; [|discriminate]. destruct (read_num r) as [r'|] eqn:Er; [|discriminate].
  destruct (read_num s) as [s'|] eqn:Es; [|discriminate]. injection H as <- <-.
  apply read_num_inv in Er; auto. apply read_num_inv in Es; auto. rewrite Er, Es.
  unfold raw_bytes, EIP1559_TX_ID, rlp_signature. cbn [Types.sg_y_parity Types.sg_r Types.sg_s].
  replace (RStr y) with (rlp_u256 (if y' then 1 else 0)); auto. destruct y as [|[|[p|p|]] [|]]; try discriminate; injection Ey as <-; reflexivity.
Qed.
