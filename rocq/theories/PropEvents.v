(** * C35 paging through the event log *)

From Verif Require Import Base Types Audit EventFacts.

(** ** Specification: a client that asks for [size] events at a time, continuing after
    what it has received, until it receives nothing. *)
Fixpoint fetch_all (fuel : nat) (start size : N) (log : list Event) : list Event :=
  match fuel with
  | O => []
  | S f =>
      match fst (get_events start size log) with
      | [] => []
      | page => page ++ fetch_all f (start + N.of_nat (List.length page)) size log
      end
  end.

(** C35. Whatever positive page size is asked for, the client receives exactly the log
    (of fewer than 2^32 events), in order, in at most one request more than there are
    events. *)
Theorem C35_paging_returns_the_log :
  forall log size fuel, 0 < size -> N.of_nat (List.length log) < 2 ^ 32 ->
    (List.length log < fuel)%nat ->
    fetch_all fuel 0 size log = log.
Proof. exact paging_returns_the_log. Qed.
Print Assumptions C35_paging_returns_the_log.

(** Each page holds at most 100 events and at most as many as asked for; the total is
    the length of the log; event [i] of the page is event [start + i] of the log. *)
Theorem C35_page :
  forall log start size page total, start < 2 ^ 32 -> get_events start size log = (page, total) ->
    total = N.of_nat (List.length log) /\
    N.of_nat (List.length page) = N.min (N.min size 100) (total - start) /\
    (forall i, (i < List.length page)%nat ->
       nth_error page i = nth_error log (N.to_nat start + i)).
Proof. exact page_exact. Qed.
Print Assumptions C35_page.

(** Finding: the start index is truncated to 32 bits, so a start beyond 2^32 wraps
    around and returns events that are not at that position. *)
Theorem C35_start_wraps_refuted :
  forall e : Event, exists start page total,
    get_events start 1 [e] = (page, total) /\ total <= start /\ page <> [].
Proof. exact start_wraps. Qed.
Print Assumptions C35_start_wraps_refuted.

Example C35_witness :
  let e := fun n => {| ev_timestamp := n; ev_payload := EvSyncedToBlock n |} in
  fetch_all 4 0 2 [e 1; e 2; e 3] = [e 1; e 2; e 3] /\
  fst (get_events 1 7 [e 1; e 2; e 3]) = [e 2; e 3].
Proof. vm_compute. auto. Qed.
