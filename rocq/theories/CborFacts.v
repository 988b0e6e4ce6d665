(** * Proofs about stored bytes (C43, C44, C62, C63). *)

From Verif Require Import Base BMap MultiKeyMap Bytes Types Amount Tx CallData Network Hex
  Transactions State Audit Ranges Rlp Parser Memo Cbor CborSpec ArithFacts.

(** no condition *)
Definition any {A} (v : A) : Prop := True.
Lemma any_true {A} (v : A) : any v.
Proof. exact I. Qed.
Lemma any_optional {A} (o : option A) : optional any o.
Proof. destruct o; exact I. Qed.

(** [d] reads what [e] writes and leaves what follows *)
Definition reads {A} (P : A -> Prop) (e : A -> list N) (d : Dec A) : Prop :=
  forall v tail, P v -> d (e v ++ tail) = DOk v tail.
(** it also starts with a byte other than [null] *)
Definition starts {A} (P : A -> Prop) (e : A -> list N) : Prop :=
  forall v, P v -> exists b l, e v = b :: l /\ b <> NULL.
Definition codec {A} (P : A -> Prop) (e : A -> list N) (d : Dec A) : Prop := reads P e d /\ starts P e.

Lemma take_app b tail : take (N.of_nat (List.length b)) (b ++ tail) = DOk b tail.
Proof.
  unfold take. rewrite app_length, Nat2N.id.
  replace (N.of_nat (List.length b) <=? N.of_nat (List.length b + List.length tail)) with true by (symmetry; apply N.leb_le; lia).
  rewrite firstn_app, Nat.sub_diag, firstn_all. cbn [firstn]. rewrite app_nil_r.
  rewrite skipn_app, skipn_all, Nat.sub_diag. reflexivity.
Qed.
Lemma number_be k n tail : (k = 1 \/ k = 2 \/ k = 4 \/ k = 8)%nat -> n < 256 ^ N.of_nat k ->
  dmap of_be (take (N.of_nat k)) (be_bytes k n ++ tail) = DOk n tail.
Proof.
  intros _ H. unfold dmap, dbind. rewrite <- (be_bytes_length k n) at 1. rewrite take_app. unfold dret.
  rewrite of_be_be_bytes_small by exact H. reflexivity.
Qed.

Lemma div_mod_head major i : i < 32 -> (major * 32 + i) / 32 = major /\ (major * 32 + i) mod 32 = i.
Proof.
  intros H. split.
  - rewrite N.div_add_l by lia. rewrite N.div_small by auto. lia.
  - rewrite N.add_comm, N.mod_add by lia. apply N.mod_small. auto.
Qed.
(** What the five forms of a head mean to a reader of the number *)
Lemma head_cases major n : n < 2 ^ 64 -> exists i more, head major n = (major * 32 + i) :: more /\ i < 28 /\
  forall tail, number i (more ++ tail) = DOk n tail.
Proof.
  intros Hn. unfold head.
  destruct (N.ltb_spec n 24) as [H|H0].
  { exists n, []. split; auto. split; [lia|]. intros tail. unfold number. rewrite (proj2 (N.ltb_lt _ _)) by auto. reflexivity. }
  destruct (N.ltb_spec n (2 ^ 8)) as [H|H1].
  { exists 24, [n]. split; auto. split; [lia|]. intros tail.
    change (dmap of_be (take 1) (n :: tail) = DOk n tail). unfold dmap, dbind. change (n :: tail) with ([n] ++ tail).
    change 1 with (N.of_nat (List.length [n])). rewrite take_app. reflexivity. }
  destruct (N.ltb_spec n (2 ^ 16)) as [H|H2].
  { exists 25, (be_bytes 2 n). split; auto. split; [lia|]. intros tail. apply (number_be 2); auto. }
  destruct (N.ltb_spec n (2 ^ 32)) as [H|H3].
  { exists 26, (be_bytes 4 n). split; auto. split; [lia|]. intros tail. apply (number_be 4); auto. }
  exists 27, (be_bytes 8 n). split; auto. split; [lia|]. intros tail. apply (number_be 8); auto.
Qed.
Lemma head_reads major n tail : n < 2 ^ 64 -> dec_head major (head major n ++ tail) = DOk n tail.
Proof.
  intros Hn. destruct (head_cases major n Hn) as (i & more & -> & Hi & H). cbn [app dec_head].
  destruct (div_mod_head major i) as [-> ->]; [lia|]. rewrite N.eqb_refl.
  replace (i =? 31) with false by (symmetry; apply N.eqb_neq; lia). apply H.
Qed.
Lemma head_first major n : n < 2 ^ 64 -> exists i more, head major n = (major * 32 + i) :: more /\ i < 28.
Proof. intros Hn. destruct (head_cases major n Hn) as (i & more & E & Hi & _). eauto. Qed.
Lemma head_starts major n b : major < 7 -> n < 2 ^ 64 -> exists x l, head major n ++ b = x :: l /\ x <> NULL.
Proof.
  intros Hm Hn. destruct (head_first major n Hn) as (i & more & -> & Hi). eexists. eexists. split; [reflexivity|].
  unfold NULL. lia.
Qed.

Lemma uint_reads : codec u64 enc_uint dec_uint.
Proof.
  split.
  - intros n tail Hn. unfold enc_uint, dec_uint. destruct (head_cases 0 n Hn) as (i & more & -> & Hi & H). cbn [app].
    change (0 * 32 + i) with i. rewrite (proj2 (N.ltb_lt _ _)) by auto. apply H.
  - intros n Hn. unfold enc_uint. rewrite <- (app_nil_r (head 0 n)). apply head_starts; [lia|exact Hn].
Qed.
Lemma u32_reads n tail : n < 2 ^ 32 -> dec_u32 (enc_uint n ++ tail) = DOk n tail.
Proof.
  intros H. unfold dec_u32, dbind. rewrite (proj1 uint_reads).
  - rewrite (proj2 (N.ltb_lt _ _)) by auto. reflexivity.
  - unfold u64. assert (2 ^ 32 < 2 ^ 64) by reflexivity. lia.
Qed.
Lemma bytes_reads : codec bytes enc_bytes dec_bytes.
Proof.
  split.
  - intros b tail [Hb Hl]. unfold enc_bytes, dec_bytes, dbind. rewrite <- app_assoc, head_reads by auto. apply take_app.
  - intros b [Hb Hl]. unfold enc_bytes. apply head_starts; [lia|auto].
Qed.
Lemma small_bytes n b : (n < 1000)%nat -> Forall (fun x => x < 256) b -> (List.length b <= n)%nat -> bytes b.
Proof. intros Hn Hb Hl. split; auto. assert (1000 < 2 ^ 64) by reflexivity. lia. Qed.
Lemma array_reads n : (n < 1000)%nat -> codec (bytes_of n) enc_bytes (dec_array (N.of_nat n)).
Proof.
  intros Hn. split.
  - intros b tail [Hb Hl]. unfold dec_array, dbind. rewrite (proj1 bytes_reads).
    + rewrite Hl, N.eqb_refl. reflexivity.
    + apply (small_bytes n); auto. lia.
  - intros b [Hb Hl]. apply (proj2 bytes_reads). apply (small_bytes n); auto. lia.
Qed.
Lemma fixed_reads k : (k < 1000)%nat -> codec (fun n => n < 256 ^ N.of_nat k) (fun n => enc_bytes (be_bytes k n)) (dmap of_be (dec_array (N.of_nat k))).
Proof.
  intros Hk. split.
  - intros n tail Hn. unfold dmap, dbind. rewrite (proj1 (array_reads k Hk)).
    + unfold dret. rewrite of_be_be_bytes_small by auto. reflexivity.
    + split; [apply be_bytes_byte_list|apply be_bytes_length].
  - intros n Hn. apply (proj2 (array_reads k Hk)). split; [apply be_bytes_byte_list|apply be_bytes_length].
Qed.
Lemma address_reads : codec address enc_address dec_address.
Proof. exact (fixed_reads 20 ltac:(lia)). Qed.
Lemma hash_reads : codec hash enc_hash dec_hash.
Proof. exact (fixed_reads 32 ltac:(lia)). Qed.
Lemma subaccount_reads : codec (bytes_of 32) enc_subaccount dec_subaccount.
Proof. exact (array_reads 32 ltac:(lia)). Qed.
Lemma principal_reads : codec principal enc_principal dec_principal.
Proof.
  split.
  - intros p tail [Hb Hl]. unfold enc_principal, dec_principal, dbind. rewrite (proj1 bytes_reads).
    + replace (N.of_nat (List.length p) <=? 29) with true by (symmetry; apply N.leb_le; lia). reflexivity.
    + apply (small_bytes 29); auto. lia.
  - intros p [Hb Hl]. apply (proj2 bytes_reads). apply (small_bytes 29); auto. lia.
Qed.
Lemma bool_reads : codec any enc_bool dec_bool.
Proof. split; intros []; cbn; eauto; intros; do 2 eexists; (split; [reflexivity|discriminate]). Qed.

(** *** Big numbers *)
Lemma big_reads (P : N -> Prop) be limit (e := fun v => if v <=? 2 ^ 32 - 1 then enc_uint v else if v <=? 2 ^ 64 - 1 then enc_uint v else head 6 2 ++ enc_bytes (be v)) :
  (forall v, P v -> of_be (be v) = v /\ bytes (be v) /\ match limit with Some m => N.of_nat (List.length (be v)) <= m | None => True end) ->
  codec P e (dec_big limit).
Proof.
  intros Hbe.
  assert (Hsmall : forall v tail, u64 v -> dec_big limit (enc_uint v ++ tail) = DOk v tail).
  { intros v tail Hv. unfold dec_big. rewrite (proj1 uint_reads) by auto. reflexivity. }
  assert (E32 : 2 ^ 32 - 1 < 2 ^ 64) by reflexivity.
  split.
  - intros v tail Hv. unfold e. destruct (N.leb_spec v (2 ^ 32 - 1)) as [H|H]; [apply Hsmall; unfold u64; lia|].
    destruct (N.leb_spec v (2 ^ 64 - 1)) as [H'|H']; [apply Hsmall; unfold u64; lia|].
    destruct (Hbe v Hv) as (H1 & H2 & H3). rewrite <- app_assoc. unfold dec_big.
    change (head 6 2) with [194]. cbn [app dec_uint]. change (194 <? 28) with false. cbn [negb].
    unfold dbind. change (dec_head 6 (194 :: enc_bytes (be v) ++ tail)) with (@DOk N 2 (enc_bytes (be v) ++ tail)). cbn beta iota.
    change (negb (2 =? 2)) with false. cbn beta iota. rewrite (proj1 bytes_reads) by auto. destruct limit as [m|].
    + replace (m <? N.of_nat (List.length (be v))) with false by (symmetry; apply N.ltb_ge; auto). rewrite H1. reflexivity.
    + rewrite H1. reflexivity.
  - intros v Hv. unfold e. destruct (N.leb_spec v (2 ^ 32 - 1)); [apply (proj2 uint_reads); unfold u64; lia|].
    destruct (N.leb_spec v (2 ^ 64 - 1)); [apply (proj2 uint_reads); unfold u64; lia|].
    change (head 6 2) with [194]. do 2 eexists. split; [reflexivity|discriminate].
Qed.
Lemma u256_reads : codec u256 enc_u256 dec_u256.
Proof.
  apply big_reads. intros v Hv.
  assert (Hu : is_u256 v). { unfold is_u256. pose proof U256_MAX_val as E. unfold u256 in Hv. lia. }
  pose proof (be_min_length v). split; [apply of_be_be_min; auto|]. split.
  - apply (small_bytes 32); auto; [lia|apply be_min_byte_list].
  - lia.
Qed.
Lemma be_nat_of n : of_be (be_nat n) = n.
Proof.
  unfold be_nat. apply of_be_be_bytes_small. rewrite N2Nat.id. change 256 with (2 ^ 8). rewrite <- N.pow_mul_r.
  eapply N.lt_le_trans; [apply N.size_gt|]. apply N.pow_le_mono_r; [lia|].
  pose proof (N.div_mod (N.size n + 7) 8 ltac:(lia)). pose proof (N.mod_lt (N.size n + 7) 8 ltac:(lia)). lia.
Qed.
Lemma nat_reads : codec natural enc_nat dec_nat.
Proof.
  apply big_reads. intros v Hv. split; [apply be_nat_of|]. split; auto. split; [apply be_bytes_byte_list|].
  unfold be_nat. rewrite be_bytes_length, N2Nat.id. unfold natural in Hv. assert (2 ^ 64 > 8) by reflexivity.
  apply N.div_lt_upper_bound; lia.
Qed.

(** *** Text *)
Lemma ltb_true a b : a < b -> (a <? b) = true.
Proof. apply N.ltb_lt. Qed.
Lemma ltb_false a b : b <= a -> (a <? b) = false.
Proof. apply N.ltb_ge. Qed.
Lemma leb_true a b : a <= b -> (a <=? b) = true.
Proof. apply N.leb_le. Qed.
Lemma leb_false a b : b < a -> (a <=? b) = false.
Proof. apply N.leb_gt. Qed.
Ltac decide_one :=
  match goal with
  | |- context [?a <? ?b] => first [rewrite (ltb_true a b) by lia | rewrite (ltb_false a b) by lia]
  | |- context [?a <=? ?b] => first [rewrite (leb_true a b) by lia | rewrite (leb_false a b) by lia]
  end.
Lemma utf8_char_reads c l : scalar c -> of_utf8 (utf8_char c ++ l) = option_map (cons c) (of_utf8 l).
Proof.
  intros Hc. unfold utf8_char.
  destruct (N.ltb_spec c 128) as [H1|H1].
  { cbn [app of_utf8]. decide_one. reflexivity. }
  pose proof (N.div_mod c 64 ltac:(lia)) as D0. pose proof (N.mod_lt c 64 ltac:(lia)) as M0.
  set (q0 := c / 64) in *. set (r0 := c mod 64) in *.
  destruct (N.ltb_spec c 2048) as [H2|H2].
  { cbn [app of_utf8]. unfold cont. repeat decide_one. cbn [andb].
    replace ((192 + q0 - 192) * 64 + (128 + r0 - 128)) with c by lia. reflexivity. }
  pose proof (N.div_mod q0 64 ltac:(lia)) as D1. pose proof (N.mod_lt q0 64 ltac:(lia)) as M1.
  assert (E1 : c / 4096 = q0 / 64) by (unfold q0; rewrite N.div_div by lia; reflexivity).
  rewrite E1. set (q1 := q0 / 64) in *. set (r1 := q0 mod 64) in *.
  unfold scalar in Hc.
  destruct (N.ltb_spec c 65536) as [H3|H3].
  { cbn [app of_utf8]. unfold cont. repeat decide_one. cbn [andb].
    replace (if 224 + q1 =? 224 then 160 <=? 128 + r1 else true) with true
      by (symmetry; destruct (N.eqb_spec (224 + q1) 224); auto; apply N.leb_le; lia).
    replace (if 224 + q1 =? 237 then 128 + r1 <? 160 else true) with true
      by (symmetry; destruct (N.eqb_spec (224 + q1) 237); auto; apply N.ltb_lt; lia).
    cbn [andb].
    replace ((224 + q1 - 224) * 4096 + (128 + r1 - 128) * 64 + (128 + r0 - 128)) with c by lia. reflexivity. }
  pose proof (N.div_mod q1 64 ltac:(lia)) as D2. pose proof (N.mod_lt q1 64 ltac:(lia)) as M2.
  assert (E2 : c / 262144 = q1 / 64) by (unfold q1, q0; rewrite !N.div_div by lia; reflexivity).
  rewrite E2. set (q2 := q1 / 64) in *. set (r2 := q1 mod 64) in *.
  cbn [app of_utf8]. unfold cont. repeat decide_one. cbn [andb].
  replace (if 240 + q2 =? 240 then 144 <=? 128 + r2 else true) with true
    by (symmetry; destruct (N.eqb_spec (240 + q2) 240); auto; apply N.leb_le; lia).
  replace (if 240 + q2 =? 244 then 128 + r2 <? 144 else true) with true
    by (symmetry; destruct (N.eqb_spec (240 + q2) 244); auto; apply N.ltb_lt; lia).
  cbn [andb].
  replace ((240 + q2 - 240) * 262144 + (128 + r2 - 128) * 4096 + (128 + r1 - 128) * 64 + (128 + r0 - 128)) with c by lia.
  reflexivity.
Qed.
Lemma utf8_reads t : Forall scalar t -> of_utf8 (utf8 t) = Some t.
Proof.
  induction 1 as [|c t Hc Ht IH]; [reflexivity|]. unfold utf8 in *. cbn [flat_map].
  rewrite utf8_char_reads by auto. rewrite IH. reflexivity.
Qed.
Lemma utf8_length t : (List.length (utf8 t) <= 4 * List.length t)%nat.
Proof.
  induction t as [|c t IH]; [cbn; lia|]. unfold utf8 in *. cbn [flat_map List.length]. rewrite app_length.
  assert (List.length (utf8_char c) <= 4)%nat; [|lia].
  unfold utf8_char. destruct (c <? 128); [cbn; lia|]. destruct (c <? 2048); [cbn; lia|]. destruct (c <? 65536); cbn; lia.
Qed.
Lemma text_reads : codec string_of enc_text dec_text.
Proof.
  assert (Hl : forall t, string_of t -> N.of_nat (List.length (utf8 t)) < 2 ^ 64).
  { intros t [_ H]. pose proof (utf8_length t). lia. }
  split.
  - intros t tail Ht. unfold enc_text, dec_text, dbind. rewrite <- app_assoc, head_reads by auto. rewrite take_app.
    rewrite utf8_reads by apply Ht. reflexivity.
  - intros t Ht. unfold enc_text. apply head_starts; [lia|auto].
Qed.

(** *** Structures *)
Definition cnt (fs : list (option (list N))) : N := N.of_nat (List.length (strip_none fs)).
Definition its (fs : list (option (list N))) (tail : list N) : list N := flat_map item (strip_none fs) ++ tail.

Lemma strip_some {A} (v : A) fs : strip_none (Some v :: fs) = Some v :: strip_none fs.
Proof. reflexivity. Qed.
Lemma cnt_some b fs : cnt (Some b :: fs) = cnt fs + 1.
Proof. unfold cnt. rewrite strip_some. cbn [List.length]. lia. Qed.
Lemma its_some b fs tail : its (Some b :: fs) tail = b ++ its fs tail.
Proof. unfold its. rewrite strip_some. cbn [flat_map item]. rewrite <- app_assoc. reflexivity. Qed.
Lemma none_cases fs tail :
  (cnt (None :: fs) = 0 /\ cnt fs = 0 /\ its (None :: fs) tail = its fs tail) \/
  (cnt (None :: fs) = cnt fs + 1 /\ its (None :: fs) tail = NULL :: its fs tail).
Proof.
  unfold cnt, its. cbn [strip_none]. destruct (strip_none fs) as [|x r]; [left; auto|]. right.
  split; [cbn [List.length]; lia|reflexivity].
Qed.

Lemma req_one {A} (P : A -> Prop) e d fs tail v : codec P e d -> P v ->
  req d (cnt (Some (e v) :: fs)) (its (Some (e v) :: fs) tail) = DOk (v, cnt fs) (its fs tail).
Proof.
  intros [Hr _] Hv. unfold req. rewrite cnt_some, its_some.
  replace (cnt fs + 1 =? 0) with false by (symmetry; apply N.eqb_neq; lia).
  rewrite Hr by auto. replace (cnt fs + 1 - 1) with (cnt fs) by lia. reflexivity.
Qed.
Lemma req_field {A B} (P : A -> Prop) e d (f : A -> FDec B) fs tail v : codec P e d -> P v ->
  fbind (req d) f (cnt (Some (e v) :: fs)) (its (Some (e v) :: fs) tail) = f v (cnt fs) (its fs tail).
Proof. intros Hc Hv. unfold fbind. rewrite (req_one P) by auto. reflexivity. Qed.
Lemma opt_field {A B} (P : A -> Prop) e d (f : option A -> FDec B) fs tail o : codec P e d -> optional P o ->
  fbind (opt d) f (cnt (option_map e o :: fs)) (its (option_map e o :: fs) tail) = f o (cnt fs) (its fs tail).
Proof.
  intros [Hr Hs] Ho. unfold fbind, opt. destruct o as [v|]; cbn [option_map optional] in *.
  - rewrite cnt_some, its_some. replace (cnt fs + 1 =? 0) with false by (symmetry; apply N.eqb_neq; lia).
    destruct (Hs v Ho) as (b & l & E & Hb). specialize (Hr v (its fs tail) Ho). rewrite E in *. cbn [app] in *.
    rewrite (proj2 (N.eqb_neq b NULL)) by auto. rewrite Hr.
    replace (cnt fs + 1 - 1) with (cnt fs) by lia. reflexivity.
  - destruct (none_cases fs tail) as [(-> & E & ->)|(-> & ->)].
    + rewrite E. reflexivity.
    + replace (cnt fs + 1 =? 0) with false by (symmetry; apply N.eqb_neq; lia). rewrite N.eqb_refl.
      replace (cnt fs + 1 - 1) with (cnt fs) by lia. reflexivity.
Qed.
Lemma ret_end {A} (v : A) tail : fret v (cnt []) (its [] tail) = DOk (v, 0) tail.
Proof. reflexivity. Qed.

Lemma strip_length {A} (fs : list (option A)) : (List.length (strip_none fs) <= List.length fs)%nat.
Proof. induction fs as [|[x|] fs IH]; cbn; auto; [lia|]. destruct (strip_none fs); cbn in *; lia. Qed.
Lemma cnt_small fs : (List.length fs < 1000)%nat -> cnt fs < 2 ^ 64.
Proof. intros H. unfold cnt. pose proof (strip_length fs). assert (1000 < 2 ^ 64) by reflexivity. lia. Qed.
Lemma struct_reads {A} (d : FDec A) fs v tail : (List.length fs < 1000)%nat ->
  d (cnt fs) (its fs tail) = DOk (v, 0) tail -> dec_struct d (enc_struct fs ++ tail) = DOk v tail.
Proof.
  intros Hl Hd. unfold dec_struct, enc_struct. rewrite <- app_assoc. rewrite head_reads by (apply cnt_small; auto).
  fold (cnt fs). fold (its fs tail). rewrite Hd. reflexivity.
Qed.
Lemma struct_starts fs : (List.length fs < 1000)%nat -> exists b l, enc_struct fs = b :: l /\ b <> NULL.
Proof. intros H. unfold enc_struct. apply head_starts; [lia|]. apply cnt_small. auto. Qed.
Lemma variant_reads {A} (d : N -> FDec A) i fs v tail : i < 1000 -> (List.length fs < 1000)%nat ->
  d i (cnt fs) (its fs tail) = DOk (v, 0) tail -> dec_variant d (enc_variant i fs ++ tail) = DOk v tail.
Proof.
  intros Hi Hl Hd. unfold dec_variant, enc_variant, dbind. rewrite <- !app_assoc. rewrite head_reads by reflexivity.
  change (2 =? 2) with true. cbn iota beta. rewrite u32_reads by (assert (1000 < 2 ^ 32) by reflexivity; lia).
  apply struct_reads; auto.
Qed.
Lemma variant_starts i fs : exists b l, enc_variant i fs = b :: l /\ b <> NULL.
Proof. unfold enc_variant. change (head 4 2) with [130]. do 2 eexists. split; [reflexivity|discriminate]. Qed.

Lemma many_reads {A} (P : A -> Prop) e d : codec P e d -> forall l fuel tail, Forall P l -> (List.length l <= fuel)%nat ->
  dec_many d fuel (N.of_nat (List.length l)) (flat_map e l ++ tail) = DOk l tail.
Proof.
  intros [Hr _]. induction l as [|x l IH]; intros fuel tail Hl Hf; [destruct fuel; reflexivity|].
  destruct fuel as [|fuel]; [cbn in Hf; lia|]. cbn [dec_many flat_map]. cbn [List.length] in *.
  replace (N.of_nat (S (List.length l)) =? 0) with false by (symmetry; apply N.eqb_neq; lia).
  unfold dbind at 1. rewrite <- app_assoc. rewrite Hr by (inversion Hl; auto).
  replace (N.of_nat (S (List.length l)) - 1) with (N.of_nat (List.length l)) by lia.
  unfold dbind. rewrite IH by (inversion Hl; auto || lia). reflexivity.
Qed.
Lemma flat_longer {A} (P : A -> Prop) e : starts P e -> forall l, Forall P l -> (List.length l <= List.length (flat_map e l))%nat.
Proof.
  intros Hs. induction 1 as [|x l Hx Hl IH]; [cbn; lia|]. cbn [flat_map List.length]. rewrite app_length.
  destruct (Hs x Hx) as (b & r & -> & _). cbn. lia.
Qed.
Lemma list_reads {A} (P : A -> Prop) e d : codec P e d ->
  codec (fun l => N.of_nat (List.length l) < 2 ^ 64 /\ Forall P l) (enc_list e) (dec_list d).
Proof.
  intros Hc. split.
  - intros l tail [Hn Hl]. unfold enc_list, dec_list, dbind. rewrite <- app_assoc, head_reads by auto.
    apply (many_reads P); auto. rewrite app_length. pose proof (flat_longer P e (proj2 Hc) l Hl). lia.
  - intros l [Hn Hl]. unfold enc_list. apply head_starts; [lia|auto].
Qed.

Lemma weaken_codec {A} (P Q : A -> Prop) e d : codec P e d -> (forall v, Q v -> P v) -> codec Q e d.
Proof. intros [H1 H2] HQ. split; [intros v tail Hv; apply H1; auto|intros v Hv; apply H2; auto]. Qed.

#[local] Hint Resolve uint_reads bytes_reads address_reads hash_reads subaccount_reads principal_reads bool_reads u256_reads nat_reads
  text_reads : codecs.
#[local] Hint Resolve any_true any_optional : codecs.
Lemma id_reads : codec u64 enc_id dec_id. Proof. exact uint_reads. Qed.
#[local] Hint Resolve id_reads : codecs.

Ltac fields :=
  repeat (first [erewrite req_field by (eauto with codecs; fail) | erewrite opt_field by (eauto with codecs; fail)]);
  apply ret_end.
Ltac structure := apply struct_reads; [cbn; lia|]; fields.
Ltac split_all := repeat match goal with H : _ /\ _ |- _ => destruct H end.

Lemma network_reads : codec any enc_network dec_network.
Proof.
  split.
  - intros n tail _. unfold enc_network, dec_network, dbind. rewrite u32_reads by (destruct n; reflexivity). destruct n; reflexivity.
  - intros n _. apply (proj2 uint_reads). destruct n; reflexivity.
Qed.
Lemma tag_reads : codec any enc_tag dec_tag.
Proof.
  split.
  - intros n tail _. unfold enc_tag, dec_tag, dbind. rewrite u32_reads by (destruct n; reflexivity). destruct n; reflexivity.
  - intros n _. apply (proj2 uint_reads). destruct n; reflexivity.
Qed.
#[local] Hint Resolve network_reads tag_reads : codecs.

Lemma source_reads : codec ok_source enc_source dec_source.
Proof.
  split; [|intros v _; apply struct_starts; cbn; lia].
  intros [h i] tail [H1 H2]. unfold enc_source, dec_source. cbn [fst snd] in *. structure.
Qed.
Lemma ledger_subaccount_reads : codec u256 enc_ledger_subaccount dec_ledger_subaccount.
Proof.
  split; [|intros v _; apply struct_starts; cbn; lia].
  intros v tail H. unfold enc_ledger_subaccount, dec_ledger_subaccount. apply struct_reads; [cbn; lia|].
  rewrite (req_one u256) by auto with codecs. reflexivity.
Qed.
#[local] Hint Resolve source_reads ledger_subaccount_reads : codecs.
Lemma native_event_reads : codec ok_native_event enc_native_event dec_native_event.
Proof.
  split; [|intros v _; apply struct_starts; cbn; lia].
  intros [] tail H. unfold ok_native_event in H. cbn in H. split_all. unfold enc_native_event, dec_native_event. structure.
Qed.
Lemma erc20_event_reads : codec ok_erc20_event enc_erc20_event dec_erc20_event.
Proof.
  split; [|intros v _; apply struct_starts; cbn; lia].
  intros [] tail H. unfold ok_erc20_event in H. cbn in H. split_all. unfold enc_erc20_event, dec_erc20_event. structure.
Qed.
Lemma token_reads : codec ok_token enc_token dec_token.
Proof.
  split; [|intros v _; apply struct_starts; cbn; lia].
  intros [] tail H. unfold ok_token in H. cbn in H. split_all. unfold enc_token, dec_token. structure.
Qed.
Lemma access_item_reads :
  codec (fun x : Address * list N => address (fst x) /\ N.of_nat (List.length (snd x)) < 2 ^ 64 /\ Forall hash (snd x))
    enc_access_item dec_access_item.
Proof.
  split; [|intros v _; apply struct_starts; cbn; lia].
  intros [a k] tail (H1 & H2). unfold enc_access_item, dec_access_item. cbn [fst snd] in *. apply struct_reads; [cbn; lia|].
  pose proof (list_reads _ _ _ hash_reads) as Hl. fields.
Qed.
Lemma access_list_reads : codec ok_access_list (enc_list enc_access_item) (dec_list dec_access_item).
Proof. exact (list_reads _ _ _ access_item_reads). Qed.
#[local] Hint Resolve native_event_reads erc20_event_reads token_reads access_list_reads : codecs.
Lemma tx_reads : codec ok_tx enc_tx dec_tx.
Proof.
  split; [|intros v _; apply struct_starts; cbn; lia].
  intros [] tail H. unfold ok_tx in H.
  cbn [Types.tx_chain_id Types.tx_nonce Types.tx_max_priority_fee_per_gas Types.tx_max_fee_per_gas Types.tx_gas_limit Types.tx_destination
    Types.tx_amount Types.tx_data Types.tx_access_list] in H.
  split_all. unfold enc_tx, dec_tx. structure.
Qed.
Lemma signature_reads : codec (fun s => u256 (sg_r s) /\ u256 (sg_s s)) enc_signature dec_signature.
Proof.
  split; [|intros v _; apply struct_starts; cbn; lia].
  intros [] tail H. cbn in H. split_all. unfold enc_signature, dec_signature. apply struct_reads; [cbn; lia|].
  fields.
Qed.
#[local] Hint Resolve tx_reads signature_reads : codecs.
Lemma signed_reads keccak : codec (ok_signed keccak) enc_signed (dec_signed keccak).
Proof.
  split; [|intros v _; apply struct_starts; cbn; lia].
  intros t tail (H1 & H2 & H3 & H4). unfold enc_signed, dec_signed. rewrite H4 at 3.
  assert (Hs : (fun s => u256 (sg_r s) /\ u256 (sg_s s)) (st_sig t)) by auto.
  structure.
Qed.
Lemma status_reads : codec any enc_status dec_status.
Proof.
  split; [|intros v _; apply variant_starts].
  intros s tail _. unfold enc_status, dec_status. apply variant_reads; [destruct s; reflexivity|cbn; lia|].
  destruct s; reflexivity.
Qed.
#[local] Hint Resolve signed_reads status_reads : codecs.
Lemma receipt_reads : codec ok_receipt enc_receipt dec_receipt.
Proof.
  split; [|intros v _; apply struct_starts; cbn; lia].
  intros [] tail H. unfold ok_receipt in H. cbn in H. split_all. unfold enc_receipt, dec_receipt. structure.
Qed.
Lemma native_request_reads : codec ok_native_request enc_native_request dec_native_request.
Proof.
  split; [|intros v _; apply struct_starts; cbn; lia].
  intros [] tail H. unfold ok_native_request in H. cbn in H. split_all. unfold enc_native_request, dec_native_request. structure.
Qed.
Lemma erc20_request_reads : codec ok_erc20_request enc_erc20_request dec_erc20_request.
Proof.
  split; [|intros v _; apply struct_starts; cbn; lia].
  intros [] tail H. unfold ok_erc20_request in H. cbn in H. split_all. unfold enc_erc20_request, dec_erc20_request. structure.
Qed.
Lemma index_reads : codec ok_index enc_index dec_index.
Proof.
  split; [|intros []; intros; apply variant_starts].
  intros [b|b l e] tail H; cbn in H; unfold enc_index, dec_index; apply variant_reads; try reflexivity; try (cbn; lia).
  - change (0 =? 0) with true. cbn iota. fields.
  - split_all. change (1 =? 0) with false. change (1 =? 1) with true. cbn iota. fields.
Qed.
Lemma reimbursement_reads : codec ok_reimbursement enc_reimbursement dec_reimbursement.
Proof.
  split; [|intros v _; apply struct_starts; cbn; lia].
  intros [] tail H. unfold ok_reimbursement in H. cbn in H. split_all. unfold enc_reimbursement, dec_reimbursement. structure.
Qed.
Lemma reimbursed_reads : codec ok_reimbursed enc_reimbursed dec_reimbursed.
Proof.
  split; [|intros v _; apply struct_starts; cbn; lia].
  intros [] tail H. unfold ok_reimbursed in H. cbn in H. split_all. unfold enc_reimbursed, dec_reimbursed. structure.
Qed.
Lemma init_reads : codec ok_init enc_init dec_init.
Proof.
  split; [|intros v _; apply struct_starts; cbn; lia].
  intros [] tail H. unfold ok_init in H. cbn in H. split_all. unfold enc_init, dec_init. apply struct_reads; [cbn; lia|].
  fields.
Qed.
Lemma upgrade_reads : codec ok_upgrade enc_upgrade dec_upgrade.
Proof.
  split; [|intros v _; apply struct_starts; cbn; lia].
  intros [] tail H. unfold ok_upgrade in H. cbn in H. split_all. unfold enc_upgrade, dec_upgrade. apply struct_reads; [cbn; lia|].
  fields.
Qed.
#[local] Hint Resolve receipt_reads native_request_reads erc20_request_reads index_reads reimbursement_reads reimbursed_reads init_reads
  upgrade_reads : codecs.

Lemma payload_reads keccak : codec (ok_payload keccak) enc_payload (dec_payload keccak).
Proof.
  split; [|intros []; intros; apply variant_starts].
  intros e tail H. unfold dec_payload.
  destruct e; cbn [ok_payload] in H; split_all; cbn [enc_payload];
    (apply variant_reads; [reflexivity|cbn; lia|]; cbn beta iota; fields).
Qed.
#[local] Hint Resolve payload_reads : codecs.
Lemma event_reads keccak : codec (ok_event keccak) store_event (dec_event keccak).
Proof.
  split; [|intros v _; apply struct_starts; cbn; lia].
  intros [t p] tail [H1 H2]. cbn [ev_timestamp ev_payload] in *. unfold store_event, dec_event. structure.
Qed.
Lemma mint_memo_reads : codec ok_mint_memo mint_memo_bytes dec_mint_memo.
Proof.
  split; [|intros []; intros; apply variant_starts].
  intros m tail H. unfold dec_mint_memo.
  destruct m; cbn [ok_mint_memo] in H; split_all; cbn [mint_memo_bytes];
    (apply variant_reads; [reflexivity|cbn; lia|]).
  - change (0 =? 0) with true. cbn iota. fields.
  - change (1 =? 0) with false. change (1 =? 1) with true. cbn iota. fields.
  - change (2 =? 0) with false. change (2 =? 1) with false. change (2 =? 2) with true. cbn iota. fields.
Qed.
Lemma burn_memo_reads : codec ok_burn_memo burn_memo_bytes dec_burn_memo.
Proof.
  split; [|intros []; intros; apply variant_starts].
  intros m tail H. unfold dec_burn_memo.
  destruct m; cbn [ok_burn_memo] in H; split_all; cbn [burn_memo_bytes];
    (apply variant_reads; [reflexivity|cbn; lia|]).
  - change (0 =? 0) with true. cbn iota. fields.
  - change (1 =? 0) with false. change (1 =? 1) with true. cbn iota. fields.
  - change (2 =? 0) with false. change (2 =? 1) with false. change (2 =? 2) with true. cbn iota. fields.
Qed.

(** What is read determines what was written *)
Lemma codec_inj {A} (P : A -> Prop) e d : codec P e d -> forall v w t u, P v -> P w -> e v ++ t = e w ++ u -> v = w /\ t = u.
Proof. intros [H _] v w t u Hv Hw E. pose proof (H v t Hv) as E1. rewrite E, (H w u Hw) in E1. injection E1 as -> ->. auto. Qed.
Lemma codec_inj_all {A} (P : A -> Prop) e d : codec P e d -> forall v w, P v -> P w -> e v = e w -> v = w.
Proof.
  intros Hc v w Hv Hw E. refine (proj1 (codec_inj P e d Hc v w [] [] Hv Hw _)). rewrite !app_nil_r. exact E.
Qed.
