(** * C84: the log of the minter as JSON *)

From Coq Require Import Sorting.Permutation Sorting.Sorted.
From Verif Require Import Base Bytes Types BMap Logs LogsFacts.

(** What is given out is the longest part of the log, from its beginning, that fits into the
    limit: nothing fits that is longer. Missing: limits below 14 bytes, the size of an empty
    log, where nothing fits. *)
Theorem C84_longest_fitting_partial :
  forall max entries, (14 <= max)%nat ->
    exists k, (k <= List.length entries)%nat /\ serialize_logs max entries = json_log (firstn k entries) /\
      (List.length (serialize_logs max entries) <= max)%nat /\
      forall j, (k < j <= List.length entries)%nat -> (max < List.length (json_log (firstn j entries)))%nat.
Proof.
  intros max entries H. destruct (serialize_longest max entries H) as (k & Hk & E & Hs & Hm).
  exists k. split; [exact Hk|]. split; [exact E|]. split; [rewrite E; exact Hs|exact Hm].
Qed.
Print Assumptions C84_longest_fitting_partial.

(** The limit is not kept when it is too small for the empty log: then the whole log is
    given out. *)
Theorem C84_limit_refuted :
  (forall max entries, (max < 14)%nat -> serialize_logs max entries = json_log entries) /\
  exists max entries, (max < List.length (serialize_logs max entries))%nat /\ List.length entries = 2%nat.
Proof.
  split; [exact serialize_small|].
  set (e := {| ll_timestamp := 1; ll_priority := PrioInfo; ll_file := []; ll_line := 7; ll_message := []; ll_counter := 0 |}).
  exists 13%nat, [e; e]. split; [|reflexivity]. apply Nat.ltb_lt. vm_compute. reflexivity.
Qed.
Print Assumptions C84_limit_refuted.

(** Sorting keeps every line, puts them in the order asked for, and leaves lines of the same
    time in the order in which they were. *)
Theorem C84_sorted :
  forall o l,
    Permutation l (sort_logs o l) /\
    StronglySorted (fun a b => match o with Ascending => ll_timestamp a <= ll_timestamp b
                               | Descending => ll_timestamp b <= ll_timestamp a end) (sort_logs o l) /\
    forall t, filter (fun e => ll_timestamp e =? t) (sort_logs o l) = filter (fun e => ll_timestamp e =? t) l.
Proof. exact sort_logs_spec. Qed.
Print Assumptions C84_sorted.

(** The lines of all three buffers are there, each with the priority of its buffer. *)
Theorem C84_all_buffers :
  forall info trace_http debug,
    let log := push_all info trace_http debug [] in
    List.length log = (List.length info + List.length trace_http + List.length debug)%nat /\
    map ll_message log = map ll_message info ++ map ll_message trace_http ++ map ll_message debug /\
    map ll_priority log = repeat PrioInfo (List.length info) ++ repeat PrioTraceHttp (List.length trace_http) ++
                          repeat PrioDebug (List.length debug).
Proof.
  intros i t d. cbn zeta. unfold push_all, push_logs. rewrite !map_app, !app_length, !map_map, !map_length. cbn [ll_message ll_priority app].
  split; [cbn; lia|]. split; [rewrite <- app_assoc; reflexivity|].
  assert (R : forall (p : Priority) (l : list LogLine), map (fun _ => p) l = repeat p (List.length l))
    by (induction l; cbn; congruence).
  cbn [map app]. rewrite !R, <- app_assoc. reflexivity.
Qed.
Print Assumptions C84_all_buffers.

(** the examples of the project's tests (logs.rs 262-302): an entry too big leaves the empty
    log; a limit that two of three entries fit; sorting *)
Definition line_at (t : N) (m : string) : LogLine :=
  {| ll_timestamp := t; ll_priority := PrioInfo; ll_file := []; ll_line := 0; ll_message := text_of m; ll_counter := 0 |}.
Example C84_witness :
  serialize_logs 60 [line_at 0 "0123456789012345678901234567890123456789"] = text_of "{""entries"":[]}" /\
  serialize_logs 300 [line_at 0 ""] =
    text_of "{""entries"":[{""timestamp"":0,""priority"":""Info"",""file"":"""",""line"":0,""message"":"""",""counter"":0}]}" /\
  serialize_logs (List.length (json_log [line_at 0 ""; line_at 1 ""])) [line_at 0 ""; line_at 1 ""; line_at 2 ""] =
    json_log [line_at 0 ""; line_at 1 ""] /\
  map ll_message (sort_logs Ascending [line_at 2 "a"; line_at 0 "b"; line_at 2 "c"; line_at 1 "d"]) =
    [text_of "b"; text_of "d"; text_of "a"; text_of "c"] /\
  map ll_message (sort_logs Descending [line_at 2 "a"; line_at 0 "b"; line_at 2 "c"; line_at 1 "d"]) =
    [text_of "a"; text_of "c"; text_of "d"; text_of "b"] /\
  json_number 1731792000123456789 = text_of "1731792000123456789" /\
  json_string (text_of "a\b""" ++ [10; 1]) = text_of """a\\b\""\n\u0001""" /\
  priority_of_text (text_of "Trace_HTTP") = Some PrioTraceHttp /\ sort_of_text (text_of "descending") = None.
Proof. vm_compute. repeat split. Qed.
