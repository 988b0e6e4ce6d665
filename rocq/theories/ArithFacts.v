(** * Proofs for PropArith *)

From Verif Require Import Base Bytes Amount Ranges RangesFacts.

Lemma fits_iff n : n < 2 ^ 256 <-> n <= U256_MAX.
Proof. rewrite <- U256_MAX_val. lia. Qed.

Lemma checked_operations_exact :
  forall a b, a < 2 ^ 256 -> b < 2 ^ 256 ->
    (forall r, checked_add a b = Some r <-> r = a + b /\ r < 2 ^ 256) /\
    (forall r, checked_sub a b = Some r <-> r + b = a /\ r < 2 ^ 256) /\
    (forall r, checked_increment a = Some r <-> r = a + 1 /\ r < 2 ^ 256) /\
    (forall r, checked_decrement a = Some r <-> r + 1 = a /\ r < 2 ^ 256) /\
    (forall r, checked_mul a b = Some r <-> r = a * b /\ r < 2 ^ 256) /\
    (forall r, checked_div_floor a b = Some r <->
               (b <> 0 /\ r * b <= a < (r + 1) * b) /\ r < 2 ^ 256) /\
    (forall r, checked_div_ceil a b = Some r <->
               (b <> 0 /\ a <= r * b /\ forall r', a <= r' * b -> r <= r') /\ r < 2 ^ 256) /\
    (2 * div_by_two a <= a < 2 * (div_by_two a + 1)).
Proof.
  intros a b Ha Hb. rewrite fits_iff in Ha, Hb.
  assert (Hf : forall P r, P /\ r < 2 ^ 256 <-> P /\ r <= U256_MAX)
    by (intros; rewrite fits_iff; tauto).
  split; [intros r; rewrite Hf, checked_add_some; intuition congruence|].
  split; [intros r; rewrite Hf, checked_sub_some; lia|].
  split; [intros r; rewrite Hf; unfold checked_increment; rewrite checked_add_some; intuition congruence|].
  split; [intros r; rewrite Hf; unfold checked_decrement; rewrite checked_sub_some; lia|].
  split; [intros r; rewrite Hf, checked_mul_some; intuition congruence|].
  split; [|split].
  - intros r. rewrite Hf. unfold checked_div_floor. destruct (N.eqb_spec b 0) as [->|Hn].
    + split; [discriminate|]. intros [[C _] _]; congruence.
    + split.
      * injection 1 as <-. split.
        { split; auto. pose proof (N.div_mod a b Hn). pose proof (N.mod_lt a b Hn). nia. }
        { apply N.le_trans with a; auto. apply N.div_le_upper_bound; nia. }
      * intros [[_ H] _]. f_equal. symmetry. apply N.div_unique with (a - r * b); nia.
  - intros r. rewrite Hf. unfold checked_div_ceil. destruct (N.eqb_spec b 0) as [->|Hn].
    + split; [discriminate|]. intros [[C _] _]; congruence.
    + pose proof (N.div_mod a b Hn) as H1. pose proof (N.mod_lt a b Hn) as H2.
      assert (Hle : a / b <= a) by (apply N.div_le_upper_bound; nia).
      destruct (N.eqb_spec (a mod b) 0) as [Hm|Hm].
      * split.
        { injection 1 as <-. split; [|lia]. split; auto. split; [nia|].
          intros r' Hr'. rewrite Hm in H1. nia. }
        { intros [(_ & H3 & H4) _]. f_equal. apply N.le_antisymm; [|apply H4; nia].
          rewrite Hm in H1. nia. }
      * unfold checked_increment. rewrite checked_add_some. split.
        { intros [-> H3]. split; [|lia]. split; auto. split; [nia|].
          intros r' Hr'. nia. }
        { intros [(_ & H3 & H4) H5].
          assert (H6 : r <= a / b + 1) by (apply H4; nia).
          assert (H7 : a / b + 1 <= r) by nia. split; lia. }
  - rewrite div_by_two_spec. lia.
Qed.

Lemma conversions_exact :
  (forall n, n < 2 ^ 256 -> amount_of_nat n = Some n) /\
  (forall n, ~ n < 2 ^ 256 -> amount_of_nat n = None) /\
  (forall n, n < 2 ^ 256 -> List.length (amount_to_be n) = 32%nat /\ byte_list (amount_to_be n) /\
                       amount_from_be (amount_to_be n) = n) /\
  (forall l, List.length l = 32%nat -> byte_list l ->
             amount_from_be l < 2 ^ 256 /\ amount_to_be (amount_from_be l) = l).
Proof.
  split; [|split; [|split]].
  - intros n Hn. rewrite fits_iff in Hn. rewrite amount_of_nat_spec.
    destruct (N.leb_spec n U256_MAX); auto. lia.
  - intros n Hn. rewrite fits_iff in Hn. rewrite amount_of_nat_spec.
    destruct (N.leb_spec n U256_MAX); auto. lia.
  - intros n Hn. split; [apply be_bytes_length|]. split; [apply be_bytes_byte_list|].
    unfold amount_from_be, amount_to_be. apply of_be_be_bytes_small.
    rewrite u256_pow, U256_MAX_val; auto.
  - intros l Hl Hb. unfold amount_from_be. split.
    + pose proof (of_be_lt l Hb) as H1. rewrite Hl, u256_pow, U256_MAX_val in H1. auto.
    + unfold amount_to_be. rewrite <- Hl. apply be_bytes_of_be; auto.
Qed.

Lemma tiles_consecutive l : forall a b,
  tiles a b l <->
  (fix consecutive (a b : N) (l : list Range) : Prop :=
  match l with
  | [] => a = b + 1
  | r :: l' => fst r = a /\ fst r <= snd r <= b /\ consecutive (snd r + 1) b l'
  end) a b l.
Proof.
  induction l as [|[s e] l IH]; intros a b; cbn [tiles fst snd]; [tauto|].
  rewrite IH. intuition congruence.
Qed.

Lemma chunks_partition :
  forall a b size, a <= b -> b < 2 ^ 256 -> 0 < size ->
    exists c l,
      into_chunks (a, b) size = Done c /\ yields c l /\
      (fix consecutive (a b : N) (l : list Range) : Prop :=
  match l with
  | [] => a = b + 1
  | r :: l' => fst r = a /\ fst r <= snd r <= b /\ consecutive (snd r + 1) b l'
  end) a b l /\ Forall (fun r => snd r + 1 - fst r <= size) l /\
      (forall l', yields c l' -> l' = l).
Proof.
  intros a b size Hab Hb Hs. rewrite fits_iff in Hb.
  destruct (chunks_yield a b size Hab Hb Hs) as (l & Hy & Ht & Hf).
  eexists; exists l. unfold into_chunks. destruct (N.eqb_spec size 0); [lia|].
  cbn [negb rassert rbind]. split; [reflexivity|]. split; [exact Hy|].
  split; [apply tiles_consecutive; auto|]. split; [exact Hf|].
  intros l' Hy'. eapply yields_fun; eauto.
Qed.

Lemma consecutive_cover :
  forall a b l x, 
  (fix consecutive (a b : N) (l : list Range) : Prop :=
  match l with
  | [] => a = b + 1
  | r :: l' => fst r = a /\ fst r <= snd r <= b /\ consecutive (snd r + 1) b l'
  end) a b l ->
    (a <= x <= b <-> exists r, In r l /\ fst r <= x <= snd r) /\
    (forall i j ri rj, nth_error l i = Some ri -> nth_error l j = Some rj ->
       fst ri <= x <= snd ri -> fst rj <= x <= snd rj -> i = j).
Proof.
  intros a b l x H. apply tiles_consecutive in H. split.
  - rewrite (tiles_cover _ _ _ x H), Exists_exists. reflexivity.
  - revert a H. induction l as [|[s e] l IH]; intros a H i j ri rj Hi Hj Hxi Hxj.
    + destruct i; discriminate.
    + cbn [tiles] in H. destruct H as (-> & H1 & H2 & H3).
      assert (Hlow : forall k r, nth_error l k = Some r -> e + 1 <= fst r).
      { intros k r Hk. apply nth_error_In in Hk. apply (tiles_lower _ _ _ _ H3 Hk). }
      destruct i as [|i], j as [|j]; cbn [nth_error] in Hi, Hj; auto.
      * injection Hi as <-. apply Hlow in Hj. cbn [fst snd] in Hxi. lia.
      * injection Hj as <-. apply Hlow in Hi. cbn [fst snd] in Hxj. lia.
      * f_equal. eapply IH; eauto.
Qed.

Lemma chunks_edge :
  (forall a b size, b < a -> 0 < size -> exists c, into_chunks (a, b) size = Done c /\ yields c []) /\
  (forall r, exists msg, into_chunks r 0 = Panic msg).
Proof.
  split.
  - intros a b size Hab Hs. unfold into_chunks. destruct (N.eqb_spec size 0); [lia|].
    cbn [negb rassert rbind]. eexists; split; [reflexivity|].
    eapply yields_end. unfold chunks_next. cbn [ck_exhausted ck_range fst snd].
    destruct (N.ltb_spec b a); [reflexivity|lia].
  - intros r. eexists. reflexivity.
Qed.

Lemma halves_partition :
  (forall a b, a < b -> b < 2 ^ 256 ->
     exists m, a <= m < b /\
       partition_into_halves (a, b) = Done (Some (a, m), Some (m + 1, b)) /\
       b + 1 - (m + 1) <= m + 1 - a <= b + 1 - (m + 1) + 1) /\
  (forall a, a < 2 ^ 256 -> partition_into_halves (a, a) = Done (Some (a, a), None)).
Proof.
  split.
  - intros a b Hab Hb. rewrite fits_iff in Hb. exists (a + (b - a) / 2).
    split; [lia|]. rewrite halves_spec by auto.
    destruct (N.leb_spec b a); [lia|]. split; [reflexivity|]. lia.
  - intros a Ha. rewrite fits_iff in Ha. rewrite halves_spec by auto.
    destruct (N.leb_spec a a); [reflexivity|lia].
Qed.

Lemma join_union :
  forall a m b x, a <= m -> m < b ->
    fst (join_with (a, m) (m + 1, b)) <= x <= snd (join_with (a, m) (m + 1, b)) <->
    fst (a, m) <= x <= snd (a, m) \/ fst (m + 1, b) <= x <= snd (m + 1, b).
Proof. intros a m b x H1 H2. unfold join_with. cbn [fst snd]. lia. Qed.
