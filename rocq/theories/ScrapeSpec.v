(** * Specification of the scraping properties (C07, C08, C10, C11, C12). *)

From Verif Require Import Base BMap Types Amount Network Ranges State Audit Parser Driver Sys SysSpec.

(** The distance to the chain head, per network *)
Definition head_margin (n : EvmNetwork) : N :=
  match n with
  | BSC => 20
  | ArbitrumOne | Base_ | Optimism | Avalanche | Fantom => 12
  | _ => 0
  end.

(** A log query that settled its blocks: the logs were returned, or the response of a
    single block is too large (the block is skipped). *)
Definition settles (q : Range * LogsReply) : bool :=
  match snd q with
  | LogsOk _ => true
  | LogsTooLarge => fst (fst q) =? snd (fst q)
  | LogsErr => false
  end.
Definition settled (qs : list (Range * LogsReply)) : list Range := map fst (filter settles qs).

(** Each block of [a..b] is in exactly one range, in order, and nothing else is. *)
Fixpoint in_order (a b : N) (l : list Range) : Prop :=
  match l with
  | [] => a = b + 1
  | (s, e) :: l' => s = a /\ s <= e /\ e <= b /\ in_order (e + 1) b l'
  end.

(** The operator does not set the last scraped block *)
Definition position_kept (s : Sys) (l : Label) : Prop :=
  match l with LUpgrade (Some a) _ => ua_last_scraped_block_number a = None | _ => True end.
(** Block numbers reported by providers are below 2^256 - 1 *)
Definition real_blocks (s : Sys) (l : Label) : Prop :=
  match l with LAnswer _ (ReBlock (Some n)) => n < U256_MAX | _ => True end.
Definition kept_blocks (s : Sys) (l : Label) : Prop := real_blocks s l /\ position_kept s l.
(** Every step of a run meets [env] *)
Definition all_along (env : Sys -> Label -> Prop) (self : Principal) (keccak : list N -> Hash) (s : Sys)
  (ls : list Label) : Prop :=
  forall l1 l l2, ls = l1 ++ l :: l2 -> env (run self keccak s l1) l.

(** Function [t], when it is resumed, can go on as [t'] *)
Definition follows (keccak : list N -> Hash) (t t' : Task) : Prop :=
  exists now r c c', resume keccak now t r c = Done (c', Await t').
(** [chain t k]: [t] can be resumed [k] times and still waits *)
Inductive chain (keccak : list N -> Hash) : Task -> nat -> Prop :=
| chain_0 t : chain keccak t 0
| chain_S t t' k : follows keccak t t' -> chain keccak t' k -> chain keccak t (S k).

(** Everything a settled query returned is in the log of events *)
Definition recorded (log : list Event) (q : Range * LogsReply) : Prop :=
  match snd q with
  | LogsOk entries =>
      forall x, In x entries ->
        (forall d, parse_log x = Done (ROk d) -> In (into_deposit d) (map ev_payload log)) /\
        (forall src e, parse_log x = Done (RErr (InvalidEventSource src e)) ->
           exists text, In (EvInvalidDeposit src text) (map ev_payload log))
  | LogsTooLarge => In (EvSkippedBlock (snd (fst q))) (map ev_payload log)
  | LogsErr => True
  end.

Section Requests.
Variable self : Principal.
Variable keccak : list N -> Hash.
(** A request to scrape up to block [b], made in [s] at [now], is answered [r] *)
Definition request_answer (s : Sys) (b now : N) (r : Outcome) : Prop :=
  sys_outcomes (step self keccak s (LCall (CallRequestScraping b) now)) = sys_outcomes s ++ [(sys_next s, r)].
Definition request_accepted (s : Sys) (b now : N) : Prop := request_answer s b now (OutScraping (ROk tt)).
End Requests.
(** One minute after [t], as a u64 *)
Definition minute_after (t : N) : N := N.min (t + 60 * 10 ^ 9) (2 ^ 64 - 1).
