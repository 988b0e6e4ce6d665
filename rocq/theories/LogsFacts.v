(** * Proofs about the log of the minter *)

From Coq Require Import Sorting.Permutation Sorting.Sorted.
From Verif Require Import Base Bytes Types BMap Logs.

(** ** The length of the JSON grows with the log *)

Lemma json_lines_snoc l e : (List.length (json_lines l) <= List.length (json_lines (l ++ [e])))%nat.
Proof.
  induction l as [|x l IH]; [cbn; lia|]. destruct l as [|y l].
  - cbn [app json_lines]. rewrite !app_length. lia.
  - change (json_lines (x :: y :: l)) with (json_line x ++ [44] ++ json_lines (y :: l)).
    change (json_lines ((x :: y :: l) ++ [e])) with (json_line x ++ [44] ++ json_lines ((y :: l) ++ [e])).
    rewrite !app_length. lia.
Qed.
Definition size (l : list LogLine) : nat := List.length (json_log l).
Lemma size_lines l : size l = (14 + List.length (json_lines l))%nat.
Proof. unfold size, json_log. rewrite !app_length. change (List.length (json_key "entries")) with 10%nat. cbn [List.length]. lia. Qed.
Lemma size_snoc l e : (size l <= size (l ++ [e]))%nat.
Proof. rewrite !size_lines. pose proof (json_lines_snoc l e). lia. Qed.
Lemma size_app l l' : (size l <= size (l ++ l'))%nat.
Proof.
  revert l. induction l' as [|e l' IH]; intros l; [rewrite app_nil_r; lia|].
  change (e :: l') with ([e] ++ l'). rewrite app_assoc. pose proof (size_snoc l e). pose proof (IH (l ++ [e])). lia.
Qed.
Lemma size_firstn l j k : (j <= k)%nat -> (size (firstn j l) <= size (firstn k l))%nat.
Proof.
  intros H. replace (firstn j l) with (firstn j (firstn k l)) by (rewrite firstn_firstn; f_equal; lia).
  pose proof (size_app (firstn j (firstn k l)) (skipn j (firstn k l))) as E. rewrite firstn_skipn in E. exact E.
Qed.

(** ** The search *)

Lemma search_spec entries max : forall fuel left right json,
  (left <= right)%nat -> (right <= List.length entries)%nat -> (right - left < fuel)%nat ->
  (forall j, (right <= j <= List.length entries)%nat -> (max < size (firstn j entries))%nat) ->
  (match left with O => json = json_log entries
   | S k => json = json_log (firstn k entries) /\ (size (firstn k entries) <= max)%nat end) ->
  let r := search_prefix fuel entries max left right json in
  ((max < size [])%nat /\ r = json_log entries) \/
  exists k, (k < List.length entries)%nat /\ r = json_log (firstn k entries) /\ (size (firstn k entries) <= max)%nat /\
    forall j, (k < j <= List.length entries)%nat -> (max < size (firstn j entries))%nat.
Proof.
  induction fuel as [|f IH]; intros left right json Hl Hr Hf Hhi Hlo; [lia|].
  cbn zeta. cbn [search_prefix]. destruct (Nat.ltb_spec left right) as [Hlt|Hge].
  - assert (Hd : ((right - left) / 2 < right - left)%nat) by (apply Nat.div_lt; lia).
    set (d := ((right - left) / 2)%nat) in *. change (List.length (json_log (firstn (left + d) entries))) with (size (firstn (left + d) entries)).
    destruct (Nat.leb_spec (size (firstn (left + d) entries)) max) as [Hfit|Hbig].
    + replace (left + d + 1)%nat with (S (left + d)) by lia. apply IH; try lia; auto.
    + apply IH; try lia; auto. intros j Hj. pose proof (size_firstn entries (left + d) j ltac:(lia)). lia.
  - assert (left = right) as -> by lia. destruct right as [|k].
    + left. split; [|exact Hlo]. apply (Hhi O). lia.
    + right. destruct Hlo as [-> Hs]. exists k. split; [lia|]. split; [reflexivity|]. split; [exact Hs|]. intros j Hj. apply Hhi. lia.
Qed.

Lemma serialize_spec max entries :
  (serialize_logs max entries = json_log entries /\ ((size entries <= max)%nat \/ (max < size [])%nat)) \/
  exists k, (k < List.length entries)%nat /\ serialize_logs max entries = json_log (firstn k entries) /\
    (size (firstn k entries) <= max)%nat /\
    forall j, (k < j <= List.length entries)%nat -> (max < size (firstn j entries))%nat.
Proof.
  unfold serialize_logs. change (List.length (json_log entries)) with (size entries).
  destruct (Nat.ltb_spec max (size entries)) as [Hb|Hs]; [|left; split; [reflexivity|left; exact Hs]].
  destruct (search_spec entries max (S (List.length entries)) 0 (List.length entries) (json_log entries)) as [[H1 H2]|H]; try lia; auto.
  intros j Hj. rewrite firstn_all2 by lia. exact Hb.
Qed.

Lemma serialize_longest max entries : (14 <= max)%nat ->
  exists k, (k <= List.length entries)%nat /\ serialize_logs max entries = json_log (firstn k entries) /\
    (List.length (json_log (firstn k entries)) <= max)%nat /\
    forall j, (k < j <= List.length entries)%nat -> (max < List.length (json_log (firstn j entries)))%nat.
Proof.
  intros H. destruct (serialize_spec max entries) as [[E [Hs|Hs]]|(k & Hk & E & Hs & Hm)].
  - exists (List.length entries). rewrite firstn_all. split; [lia|]. split; [exact E|]. split; [exact Hs|]. intros j Hj. lia.
  - change (size []) with 14%nat in Hs. lia.
  - exists k. split; [lia|]. split; [exact E|]. split; [exact Hs|exact Hm].
Qed.
Lemma serialize_small max entries : (max < 14)%nat -> serialize_logs max entries = json_log entries.
Proof.
  intros H. destruct (serialize_spec max entries) as [[E _]|(k & _ & _ & Hs & _)]; [exact E|].
  rewrite size_lines in Hs. lia.
Qed.

(** ** Sorting *)

Section Sort.
Variable key : LogLine -> N.
Variable less : LogLine -> LogLine -> bool.
Variable le : N -> N -> Prop.
Hypothesis less_le : forall a b, less a b = true -> le (key a) (key b) /\ key a <> key b.
Hypothesis not_less : forall a b, less a b = false -> le (key b) (key a).
Hypothesis le_trans : forall a b c, le a b -> le b c -> le a c.

Lemma insert_perm x l : Permutation (x :: l) (insert_by less x l).
Proof.
  induction l as [|y l IH]; cbn; [reflexivity|]. destruct (less y x); [|reflexivity].
  rewrite perm_swap. constructor. exact IH.
Qed.
Lemma sort_perm l : Permutation l (sort_by less l).
Proof. induction l as [|x l IH]; cbn; [reflexivity|]. rewrite <- insert_perm. constructor. exact IH. Qed.

Lemma insert_sorted x l : StronglySorted (fun a b => le (key a) (key b)) l ->
  StronglySorted (fun a b => le (key a) (key b)) (insert_by less x l).
Proof.
  induction l as [|y l IH]; intros H; cbn; [repeat constructor|].
  inversion H as [|? ? Hs Hy]; subst. destruct (less y x) eqn:E.
  - constructor; [apply IH; auto|]. rewrite <- (insert_perm x l). constructor; auto. apply less_le; auto.
  - constructor; [exact H|]. apply not_less in E. constructor; [exact E|].
    eapply Forall_impl; [|exact Hy]. cbn. eauto.
Qed.
Lemma sort_sorted l : StronglySorted (fun a b => le (key a) (key b)) (sort_by less l).
Proof. induction l as [|x l IH]; cbn; [constructor|]. apply insert_sorted; auto. Qed.

Lemma insert_stable t x l : filter (fun e => key e =? t) (insert_by less x l) = filter (fun e => key e =? t) (x :: l).
Proof.
  induction l as [|y l IH]; cbn; [reflexivity|]. destruct (less y x) eqn:E; [|reflexivity].
  cbn. rewrite IH. cbn. apply less_le in E as [_ E].
  destruct (N.eqb_spec (key y) t), (N.eqb_spec (key x) t); congruence || reflexivity.
Qed.
Lemma sort_stable t l : filter (fun e => key e =? t) (sort_by less l) = filter (fun e => key e =? t) l.
Proof.
  induction l as [|x l IH]; [reflexivity|]. change (sort_by less (x :: l)) with (insert_by less x (sort_by less l)).
  rewrite insert_stable. cbn [filter]. rewrite IH. reflexivity.
Qed.
End Sort.

Lemma sort_logs_spec o l :
  Permutation l (sort_logs o l) /\
  StronglySorted (fun a b => match o with Ascending => ll_timestamp a <= ll_timestamp b
                             | Descending => ll_timestamp b <= ll_timestamp a end) (sort_logs o l) /\
  forall t, filter (fun e => ll_timestamp e =? t) (sort_logs o l) = filter (fun e => ll_timestamp e =? t) l.
Proof.
  destruct o; cbn [sort_logs]; (split; [apply sort_perm|]); split.
  - apply (sort_sorted ll_timestamp _ N.le); intros; try lia; rewrite ?N.ltb_lt, ?N.ltb_ge in *; lia.
  - intros t. apply (sort_stable ll_timestamp _ N.le). intros a b. rewrite N.ltb_lt. lia.
  - apply (sort_sorted ll_timestamp _ (fun a b => b <= a)); intros; rewrite ?N.ltb_lt, ?N.ltb_ge in *; lia.
  - intros t. apply (sort_stable ll_timestamp _ (fun a b => b <= a)). intros a b. rewrite N.ltb_lt. lia.
Qed.
