(** * Logs: the minter's log as JSON.

    Model of /repo/minter/src/logs.rs 27-143. Strings are their UTF-8 bytes. The buffers that
    the [log!] macro fills (crate [ic_canister_log]) are arguments. *)

From Verif Require Import Base Bytes Types BMap.

(** logs.rs 27-32 *)
Inductive Priority := PrioInfo | PrioTraceHttp | PrioDebug.
(** logs.rs 47-51 *)
Inductive Sort_ := Ascending | Descending.
(** logs.rs 65-73 *)
Record LogLine := {
  ll_timestamp : N;
  ll_priority : Priority;
  ll_file : list N;
  ll_line : N;
  ll_message : list N;
  ll_counter : N
}.

(** [str::to_lowercase]. Of the letters outside ASCII, only the Kelvin sign becomes a single
    ASCII letter, a k, which occurs in none of the words below. *)
Definition ascii_lower (c : N) : N := if (65 <=? c) && (c <=? 90) then c + 32 else c.
(** logs.rs 34-45 [Priority::from_str] *)
Definition priority_of_text (t : text) : option Priority :=
  let w := map ascii_lower t in
  if bytes_eqb w (text_of "info") then Some PrioInfo
  else if bytes_eqb w (text_of "trace_http") then Some PrioTraceHttp
  else if bytes_eqb w (text_of "debug") then Some PrioDebug
  else None.
(** logs.rs 53-63 [Sort::from_str] *)
Definition sort_of_text (t : text) : option Sort_ :=
  let w := map ascii_lower t in
  if bytes_eqb w (text_of "asc") then Some Ascending
  else if bytes_eqb w (text_of "desc") then Some Descending
  else None.

(** logs.rs 80-97 [push_logs] (the priority of the exported lines is that of their buffer)
    and 99-103 [push_all] *)
Definition push_logs (p : Priority) (buffer : list LogLine) (log : list LogLine) : list LogLine :=
  log ++ map (fun e => {| ll_timestamp := ll_timestamp e; ll_priority := p; ll_file := ll_file e;
                          ll_line := ll_line e; ll_message := ll_message e;
                          ll_counter := ll_counter e |}) buffer.
Definition push_all (info trace_http debug : list LogLine) (log : list LogLine) : list LogLine :=
  push_logs PrioDebug debug (push_logs PrioTraceHttp trace_http (push_logs PrioInfo info log)).

(** ** JSON: [serde_json::to_string] of the derived [Serialize] *)

(** decimal digits; a [u64] has at most 20 *)
Fixpoint decimal_digits (fuel : nat) (n : N) (acc : list N) : list N :=
  match fuel with
  | O => acc
  | S f => if n <? 10 then (48 + n) :: acc else decimal_digits f (n / 10) ((48 + n mod 10) :: acc)
  end.
Definition json_number (n : N) : list N := decimal_digits 20 n [].

(** crate [serde_json], [format_escaped_str_contents]: bytes below 32, the quote and the backslash *)
Definition json_hex (v : N) : N := if v <? 10 then 48 + v else 87 + v.
Definition json_escape (b : N) : list N :=
  if b =? 34 then [92; 34]
  else if b =? 92 then [92; 92]
  else if b =? 8 then [92; 98]
  else if b =? 9 then [92; 116]
  else if b =? 10 then [92; 110]
  else if b =? 12 then [92; 102]
  else if b =? 13 then [92; 114]
  else if b <? 32 then [92; 117; 48; 48; json_hex (b / 16); json_hex (b mod 16)]
  else [b].
Definition json_string (l : list N) : list N := [34] ++ flat_map json_escape l ++ [34].

Definition json_priority (p : Priority) : list N :=
  json_string (text_of match p with PrioInfo => "Info" | PrioTraceHttp => "TraceHttp" | PrioDebug => "Debug" end).
Definition json_key (k : string) : list N := json_string (text_of k) ++ [58].
Definition json_line (e : LogLine) : list N :=
  [123] ++ json_key "timestamp" ++ json_number (ll_timestamp e) ++ [44] ++
  json_key "priority" ++ json_priority (ll_priority e) ++ [44] ++
  json_key "file" ++ json_string (ll_file e) ++ [44] ++
  json_key "line" ++ json_number (ll_line e) ++ [44] ++
  json_key "message" ++ json_string (ll_message e) ++ [44] ++
  json_key "counter" ++ json_number (ll_counter e) ++ [125].
Fixpoint json_lines (l : list LogLine) : list N :=
  match l with
  | [] => []
  | [e] => json_line e
  | e :: l' => json_line e ++ [44] ++ json_lines l'
  end.
Definition json_log (l : list LogLine) : list N := [123] ++ json_key "entries" ++ [91] ++ json_lines l ++ [93; 125].

(** logs.rs 105-129 [serialize_logs]: the loop, with [fuel] above [right - left] *)
Fixpoint search_prefix (fuel : nat) (entries : list LogLine) (max left right : nat) (json : list N) : list N :=
  match fuel with
  | O => json
  | S f =>
      if Nat.ltb left right then
        let mid := (left + (right - left) / 2)%nat in
        let temp := json_log (firstn mid entries) in
        if Nat.leb (List.length temp) max
        then search_prefix f entries max (mid + 1)%nat right temp
        else search_prefix f entries max left mid json
      else json
  end.
Definition serialize_logs (max : nat) (entries : list LogLine) : list N :=
  let json := json_log entries in
  if Nat.ltb max (List.length json)
  then search_prefix (S (List.length entries)) entries max 0 (List.length entries) json
  else json.

(** ** Sorting: logs.rs 131-143; [slice::sort_by] is stable *)

Fixpoint insert_by (before : LogLine -> LogLine -> bool) (x : LogLine) (l : list LogLine) : list LogLine :=
  match l with
  | [] => [x]
  | y :: l' => if before y x then y :: insert_by before x l' else x :: l
  end.
(** a later line goes before an earlier one only if it is strictly smaller *)
Definition sort_by (less : LogLine -> LogLine -> bool) (l : list LogLine) : list LogLine :=
  fold_right (insert_by less) [] l.
Definition sort_logs (o : Sort_) (l : list LogLine) : list LogLine :=
  match o with
  | Ascending => sort_by (fun a b => ll_timestamp a <? ll_timestamp b) l
  | Descending => sort_by (fun a b => ll_timestamp b <? ll_timestamp a) l
  end.
