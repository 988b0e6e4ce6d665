(** * Facts about block ranges *)

From Verif Require Import Base Amount Ranges.

(** [tiles a b l]: the ranges of [l] are non-empty, consecutive, and cover exactly
    the blocks from [a] to [b]. *)
Fixpoint tiles (a b : N) (l : list Range) : Prop :=
  match l with
  | [] => a = b + 1
  | (s, e) :: l' => s = a /\ s <= e /\ e <= b /\ tiles (e + 1) b l'
  end.

(** Running the iterator to its end yields [l]. *)
Inductive yields : Chunks -> list Range -> Prop :=
| yields_end c c' : chunks_next c = Done (None, c') -> yields c []
| yields_step c c' r l : chunks_next c = Done (Some r, c') -> yields c' l -> yields c (r :: l).

Lemma partition_at_spec s e mid :
  s <= e ->
  partition_at_checked (s, e) mid =
    Done (if mid <=? s then (None, Some (s, e))
          else if e <? mid then (Some (s, e), None)
          else (Some (s, mid - 1), Some (mid, e))).
Proof.
  intros Hse. unfold partition_at_checked.
  destruct (N.leb_spec mid s); auto. destruct (N.ltb_spec e mid); auto.
  unfold checked_decrement, checked_sub.
  destruct (N.leb_spec 1 mid); cbn [expect rbind]; [reflexivity|lia].
Qed.

Lemma halves_spec s e :
  e <= U256_MAX ->
  partition_into_halves (s, e) =
    Done (if e <=? s then (Some (s, e), None)
          else (Some (s, s + (e - s) / 2), Some (s + (e - s) / 2 + 1, e))).
Proof.
  intros He. unfold partition_into_halves.
  destruct (N.leb_spec e s) as [H|H]; auto.
  unfold checked_sub. destruct (N.leb_spec s e); [|lia]. cbn [expect rbind].
  rewrite div_by_two_spec. unfold checked_add.
  destruct (N.leb_spec (s + (e - s) / 2) U256_MAX); [|lia]. cbn [expect rbind].
  unfold checked_increment, checked_add.
  destruct (N.leb_spec (s + (e - s) / 2 + 1) U256_MAX); [|lia]. cbn [expect rbind].
  rewrite partition_at_spec by lia.
  destruct (N.leb_spec (s + (e - s) / 2 + 1) s); [lia|].
  destruct (N.ltb_spec e (s + (e - s) / 2 + 1)); [lia|].
  replace (s + (e - s) / 2 + 1 - 1) with (s + (e - s) / 2) by lia. reflexivity.
Qed.

Lemma tiles_app a b c l1 l2 :
  tiles a b l1 -> tiles (b + 1) c l2 -> b <= c -> tiles a c (l1 ++ l2).
Proof.
  revert a. induction l1 as [|[s e] l1 IH]; cbn [tiles app]; intros a H1 H2 Hbc.
  - subst a; auto.
  - destruct H1 as (-> & H3 & H4 & H5). repeat split; auto; lia.
Qed.

(** Every block is in exactly one tile. *)
Definition in_range (x : N) (r : Range) : Prop := fst r <= x <= snd r.
Lemma tiles_cover a b l x : tiles a b l -> (a <= x <= b <-> Exists (in_range x) l).
Proof.
  revert a. induction l as [|[s e] l IH]; cbn [tiles]; intros a H.
  - subst a. split; [lia|]. inversion 1.
  - destruct H as (-> & H1 & H2 & H3). specialize (IH _ H3).
    rewrite Exists_cons, <- IH. unfold in_range; cbn [fst snd]. lia.
Qed.
Lemma tiles_lower a b l r : tiles a b l -> In r l -> a <= fst r /\ snd r <= b /\ fst r <= snd r.
Proof.
  revert a. induction l as [|[s e] l IH]; cbn [tiles In]; intros a H Hin; [tauto|].
  destruct H as (-> & H1 & H2 & H3). destruct Hin as [<-|Hin]; cbn [fst snd]; [lia|].
  destruct (IH _ H3 Hin) as (? & ? & ?). lia.
Qed.
Lemma tiles_before a b l1 r1 l2 r2 l3 : tiles a b (l1 ++ r1 :: l2 ++ r2 :: l3) -> snd r1 < fst r2.
Proof.
  revert a. induction l1 as [|[s e] l1 IH]; cbn [app tiles]; intros a H.
  - destruct r1 as [s e]. cbn [tiles] in H. destruct H as (_ & _ & _ & H).
    assert (Hin : In r2 (l2 ++ r2 :: l3)) by (apply in_or_app; right; left; reflexivity).
    destruct (tiles_lower _ _ _ _ H Hin) as (? & _). cbn. lia.
  - destruct H as (_ & _ & _ & H). eapply IH; eauto.
Qed.
Lemma tiles_disjoint a b l x l1 r1 l2 r2 l3 :
  tiles a b l -> l = l1 ++ r1 :: l2 ++ r2 :: l3 -> ~ (in_range x r1 /\ in_range x r2).
Proof.
  intros H ->. revert a H. induction l1 as [|[s e] l1 IH]; cbn [app tiles]; intros a H.
  - destruct r1 as [s1 e1]. destruct H as (-> & H1 & H2 & H3).
    assert (Hin : In r2 (l2 ++ r2 :: l3)) by (apply in_or_app; right; left; auto).
    destruct (tiles_lower _ _ _ _ H3 Hin) as (? & ? & ?).
    unfold in_range; cbn [fst snd]. lia.
  - destruct H as (_ & _ & _ & H). eauto.
Qed.

Definition range_len (r : Range) : N := snd r + 1 - fst r.

Lemma chunks_next_spec s e size :
  s <= e -> e <= U256_MAX -> 0 < size ->
  exists e', s <= e' /\ e' <= e /\ e' + 1 - s <= size /\
    chunks_next {| ck_range := (s, e); ck_size := size; ck_exhausted := false |} =
      Done (Some (s, e'),
            if e' =? e then {| ck_range := (s, e); ck_size := size; ck_exhausted := true |}
            else {| ck_range := (e' + 1, e); ck_size := size; ck_exhausted := false |}).
Proof.
  intros Hse He Hsz. unfold chunks_next; cbn [ck_exhausted ck_range ck_size fst snd].
  destruct (N.ltb_spec e s); [lia|].
  rewrite or_max_add, partition_at_spec by lia. cbn [rbind].
  destruct (N.leb_spec (N.min (s + size) U256_MAX) s) as [H1|H1].
  - exists e. rewrite N.eqb_refl. repeat split; auto; lia.
  - destruct (N.ltb_spec e (N.min (s + size) U256_MAX)) as [H2|H2].
    + exists e. rewrite N.eqb_refl. repeat split; auto; lia.
    + exists (N.min (s + size) U256_MAX - 1).
      destruct (N.eqb_spec (N.min (s + size) U256_MAX - 1) e); [lia|].
      repeat split; try lia.
      replace (N.min (s + size) U256_MAX - 1 + 1) with (N.min (s + size) U256_MAX) by lia.
      reflexivity.
Qed.

Lemma chunks_yield s e size :
  s <= e -> e <= U256_MAX -> 0 < size ->
  exists l, yields {| ck_range := (s, e); ck_size := size; ck_exhausted := false |} l
    /\ tiles s e l /\ Forall (fun r => range_len r <= size) l.
Proof.
  intros Hse He Hsz. remember (e - s) as d eqn:Hd. revert s Hse Hd.
  induction d as [d IH] using (well_founded_induction N.lt_wf_0). intros s Hse ->.
  destruct (chunks_next_spec s e size) as (e' & H1 & H2 & H3 & H4); auto.
  destruct (N.eqb_spec e' e) as [->|Hne].
  - exists [(s, e)]. split; [|split].
    + eapply yields_step; [exact H4|]. eapply yields_end. reflexivity.
    + cbn [tiles]. repeat split; auto; lia.
    + repeat constructor. exact H3.
  - destruct (IH (e - (e' + 1))) with (s := e' + 1) as (l & Hy & Ht & Hf); try lia.
    exists ((s, e') :: l). split; [|split].
    + eapply yields_step; [exact H4|]. exact Hy.
    + cbn [tiles]. repeat split; auto; lia.
    + constructor; auto.
Qed.

Lemma yields_fun c l1 l2 : yields c l1 -> yields c l2 -> l1 = l2.
Proof.
  intros H1; revert l2. induction H1 as [c c' H|c c' r l H H1 IH]; intros l2 H2;
    inversion H2 as [c0 c0' E|c0 c0' r0 l0 E]; subst; try congruence.
  rewrite H in E. injection E as <- <-. f_equal. auto.
Qed.
