(** * Reachable configurations under an assumption on the environment (specification). *)

From Verif Require Import Base BMap MultiKeyMap Bytes Types Amount Tx CallData Network Hex
  Transactions State Audit Ranges Rlp Parser Memo Driver Sys.

Section Reach.
Variable self : Principal.
Variable keccak : list N -> Hash.

(** [reach env s]: [s] is reached from some installation of the canister by steps whose
    label satisfies [env] in the configuration where it happens. *)
Inductive reach (env : Sys -> Label -> Prop) : Sys -> Prop :=
| reach_init now a s : sys_init now a = Done s -> reach env s
| reach_step s l : reach env s -> env s l -> reach env (step self keccak s l).

End Reach.

(** No assumption *)
Definition any_env (s : Sys) (l : Label) : Prop := True.

Definition sys_state (s : Sys) : State := fst (sys_core s).
Definition sys_log (s : Sys) : list Event := snd (sys_core s).

(** The operator never sets the next transaction nonce back *)
Definition nonce_kept (s : Sys) (l : Label) : Prop :=
  match l with
  | LUpgrade (Some a) _ =>
      forall n, ua_next_transaction_nonce a = Some n -> next_nonce (withdrawals (sys_state s)) <= n
  | _ => True
  end.
