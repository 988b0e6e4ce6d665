(** * Specification for C05: what is wrong with an entry that is refused *)

From Verif Require Import Base Bytes Types Parser ParserSpec.

(** No address is written in the word *)
Definition no_address (w : list N) : Prop := forall a, a < 2 ^ 160 -> ~ num_word a w.

(** What a reason says about the entry *)
Definition defect (x : EventSourceError) (e : LogEntry) : Prop :=
  match x with
  | InvalidEvent CauseRemoved => le_removed e = true
  | InvalidEvent CauseTopics => forall token amount principal, le_topics e <> [DEPOSIT_TOPIC; token; amount; principal]
  | InvalidEvent CauseData => List.length (le_data e) <> 64%nat
  | InvalidEvent CauseAddress =>
      no_address (firstn 32 (le_data e)) \/ exists token, nth_error (le_topics e) 1 = Some token /\ no_address token
  | InvalidPrincipal w => nth_error (le_topics e) 3 = Some w /\ forall p, owner_principal p -> ~ holds_principal w p
  end.

(** An event about one entry of an answer *)
Definition about_entry (e : EventType) : Prop :=
  match e with
  | EvAcceptedDeposit _ | EvAcceptedErc20Deposit _ | EvInvalidDeposit _ _ => True
  | _ => False
  end.
