(** * Proofs for PropEvents *)

From Verif Require Import Base Types Audit CodecFacts.

Lemma page_exact :
  forall log start size page total, start < 2 ^ 32 -> get_events start size log = (page, total) ->
    total = N.of_nat (List.length log) /\
    N.of_nat (List.length page) = N.min (N.min size 100) (total - start) /\
    (forall i, (i < List.length page)%nat ->
       nth_error page i = nth_error log (N.to_nat start + i)).
Proof.
  intros log start size page total Hs. unfold get_events, USIZE_MODULUS, MAX_EVENTS_PER_RESPONSE.
  rewrite N.mod_small by auto. injection 1 as <- <-. split; auto. split.
  - rewrite firstn_length, skipn_length. lia.
  - intros i Hi. rewrite firstn_length in Hi.
    generalize dependent (N.to_nat (N.min size 100)). generalize (N.to_nat start) as s.
    intros s n Hi. transitivity (nth_error (skipn s log) i).
    + rewrite <- (firstn_skipn n (skipn s log)) at 2. rewrite nth_error_app1; auto.
      rewrite firstn_length. lia.
    + clear. revert s. induction log as [|x log IH]; intros [|s]; cbn [skipn Nat.add nth_error]; auto.
      destruct i; auto.
Qed.

Lemma paging_from f : forall log size start,
  0 < size -> N.of_nat (List.length log) < 2 ^ 32 -> start <= N.of_nat (List.length log) ->
  (List.length log - N.to_nat start < f)%nat ->
  (fix fetch_all (fuel : nat) (start size : N) (log : list Event) : list Event :=
  match fuel with
  | O => []
  | S f =>
      match fst (get_events start size log) with
      | [] => []
      | page => page ++ fetch_all f (start + N.of_nat (List.length page)) size log
      end
  end) f start size log = skipn (N.to_nat start) log.
Proof.
  induction f as [|f IH]; intros log size start Hs Hl Hst Hf; [lia|].
  destruct (get_events start size log) as [page total] eqn:E.
  destruct (page_exact log start size page total) as (Ht & Hp & _); [lia|auto|].
  cbn [fst]. destruct page as [|e page'] eqn:Epage.
  - cbn [List.length] in Hp. symmetry. apply skipn_all2. lia.
  - rewrite <- Epage in *.
    assert (Hnz : (0 < List.length page)%nat) by (subst page; cbn; lia).
    rewrite IH; auto; try lia.
    unfold get_events in E. injection E as E _. unfold USIZE_MODULUS in E.
    rewrite N.mod_small in E by lia.
    set (n := N.to_nat (N.min size MAX_EVENTS_PER_RESPONSE)) in E.
    replace (N.to_nat (start + N.of_nat (List.length page))) with
      (N.to_nat start + List.length page)%nat by lia.
    transitivity (firstn n (skipn (N.to_nat start) log) ++ skipn n (skipn (N.to_nat start) log));
      [|apply firstn_skipn]. rewrite E. f_equal.
    assert (Hlen : List.length page = Nat.min n (List.length log - N.to_nat start)).
    { rewrite <- E, firstn_length, skipn_length. reflexivity. }
    destruct (Nat.le_gt_cases n (List.length log - N.to_nat start)) as [Hle|Hgt].
    + replace (List.length page) with n by lia. rewrite skipn_skipn. reflexivity.
    + rewrite !skipn_all2; auto; try lia. rewrite skipn_length. lia.
Qed.

Lemma paging_returns_the_log :
  forall log size fuel, 0 < size -> N.of_nat (List.length log) < 2 ^ 32 ->
    (List.length log < fuel)%nat ->
  (fix fetch_all (fuel : nat) (start size : N) (log : list Event) : list Event :=
  match fuel with
  | O => []
  | S f =>
      match fst (get_events start size log) with
      | [] => []
      | page => page ++ fetch_all f (start + N.of_nat (List.length page)) size log
      end
  end) fuel 0 size log = log.
Proof. intros log size fuel Hs Hl Hf. rewrite paging_from; auto; lia. Qed.

Lemma start_wraps :
  forall e : Event, exists start page total,
    get_events start 1 [e] = (page, total) /\ total <= start /\ page <> [].
Proof.
  intros e. exists (2 ^ 32), [e], 1. split; [reflexivity|]. split; [lia|discriminate].
Qed.
