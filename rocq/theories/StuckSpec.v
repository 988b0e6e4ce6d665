(** * Specification of C70: a deposit of a token that is not registered *)

From Verif Require Import Base BMap Types Parser Driver Sys SysSpec ParserSpec FoundSpec.

(** Whenever logs of block [b] are asked for and the log [e] matches the filter, an answer
    with logs has [e] among them, and an answer of one block alone is not too large. No token
    is registered. *)
Definition always_reported (e : LogEntry) (b : N) (s : Sys) (l : Label) : Prop :=
  match l with
  | LAnswer id (ReLogs a) =>
      forall j r, bget id (sys_tasks s) = Some {| fl_task := TScrapeLogs j; fl_reply := r |} ->
        fst (sj_current j) <= b <= snd (sj_current j) -> topics_match (sj_topics j) (le_topics e) ->
        match a with
        | LogsOk logs => In e logs
        | LogsTooLarge => fst (sj_current j) <> snd (sj_current j)
        | LogsErr => True
        end
  | LCall (CallAddToken _ _) _ => False
  | _ => True
  end.

(** Providers report exactly what is on the chain, [e] being in block [b] *)
Definition complete_chain (block_of : EventSource -> N) (e : LogEntry) (b : N) (s : Sys) (l : Label) : Prop :=
  honest_chain block_of s l /\ always_reported e b s l.
