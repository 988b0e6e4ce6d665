(** * Key: the minter's public key and its address.

    Model of /repo/minter/src/address.rs 11-22, state.rs 44, 169-175, 751-791, of the request in
    tx.rs 539-545 and of management.rs 117-137 (its arguments). The elliptic-curve library is
    arbitrary: [decode] is [PublicKey::deserialize_sec1], [encode] is [serialize_sec1(false)]. *)

From Verif Require Import Base BMap MultiKeyMap Bytes Types Amount Tx CallData Network Hex Transactions State
  Audit Ranges Rlp Parser Memo Driver Sys SysSpec Sign.

(** ic_cdk [EcdsaPublicKeyArgument]. [canister_id] is always [None], the caller itself, and the
    curve secp256k1. *)
Record KeyRequest := { kr_name : text; kr_path : list (list N) }.
(** ic_management_canister_types [SignWithECDSAArgs] *)
Record SignRequest := { sr_hash : Hash; sr_path : list (list N); sr_name : text }.

(** state.rs 44 *)
Definition MAIN_DERIVATION_PATH : list (list N) := [].

Section Key.
Variable self : Principal.
Variable keccak : list N -> Hash.
Variable Key : Type.
Variable decode : list N -> option Key.
Variable encode : Key -> list N.

(** address.rs 11-18 [ecdsa_public_key_to_address]. The assertion on the first byte is a
    [debug_assert]. *)
Definition ecdsa_public_key_to_address (k : Key) : Address :=
  of_be (firstn 20 (skipn 12 (be_bytes 32 (keccak (skipn 1 (encode k)))))).

(** state.rs 756-760 [to_public_key] *)
Definition to_public_key (response : list N) : res Key :=
  match decode response with
  | Some k => Done k
  | None => Panic "failed to decode minter's public key"
  end.

(** state.rs 169-175 [State::minter_address], by which [get_minter_info] (main.rs 220) tells the
    address. [cache] is the field [ecdsa_public_key]. *)
Definition minter_address (cache : option (list N)) : res (option Address) :=
  match cache with
  | None => Done None
  | Some response => k <- to_public_key response ;; Done (Some (ecdsa_public_key_to_address k))
  end.

(** state.rs 751-787 [lazy_call_ecdsa_public_key], up to the call and after it *)
Inductive Looked := Known (k : Key) | Asked (r : KeyRequest).
Definition lazy_start (cache : option (list N)) (s : State) : res Looked :=
  match cache with
  | Some response => k <- to_public_key response ;; Done (Known k)
  | None => Done (Asked {| kr_name := ecdsa_key_name s; kr_path := MAIN_DERIVATION_PATH |})
  end.
Definition lazy_resume (answer : option (list N)) : res (option (list N) * Key) :=
  match answer with
  | None => Panic "failed to get minter's public key"
  | Some response => k <- to_public_key response ;; Done (Some response, k)
  end.

(** tx.rs 539-543 [sign] and management.rs 117-137 [sign_with_ecdsa]: what is asked *)
Definition sign_request (s : State) (t : Tx) : SignRequest :=
  {| sr_hash := signing_hash keccak t; sr_path := []; sr_name := ecdsa_key_name s |}.

(** The canister with its cache: the functions waiting for a public key, and the keys given
    to all functions that have asked since the installation. The functions that ask are the
    endpoint [minter_address] (main.rs 150), a timer (main.rs 64-69), [compute_recovery_id]
    (tx.rs 580) and the questions for transaction counts (withdraw.rs 186, 446): here, anyone
    at any moment. *)
Record KSys := { ks_sys : Sys; ks_cache : option (list N); ks_waiting : list KeyRequest; ks_told : list Key }.

Inductive KLabel :=
| KMove (l : Label)                              (* anything in Sys.v *)
| KLook                                          (* someone needs the key *)
| KReply (i : nat) (answer : option (list N)).   (* the management canister answers *)

(** lifecycle.rs 150: the cache is empty after installation and replay *)
Definition upgraded (s : Sys) (l : Label) : bool :=
  match l with
  | LUpgrade a now =>
      if now <? sys_clock s then false
      else match sys_tasks s with
           | [] => match canister_upgrade now a (sys_core s) with Done _ => true | Panic _ => false end
           | _ => false
           end
  | _ => false
  end.
Definition is_upgrade (l : Label) : bool := match l with LUpgrade _ _ => true | _ => false end.

Definition kstep (s : KSys) (l : KLabel) : KSys :=
  match l with
  | KMove l =>
      match ks_waiting s, is_upgrade l with
      | _ :: _, true => s
      | _, _ => {| ks_sys := step self keccak (ks_sys s) l;
                   ks_cache := if upgraded (ks_sys s) l then None else ks_cache s;
                   ks_waiting := ks_waiting s; ks_told := ks_told s |}
      end
  | KLook =>
      match lazy_start (ks_cache s) (sys_state (ks_sys s)) with
      | Panic _ => s
      | Done (Known k) => {| ks_sys := ks_sys s; ks_cache := ks_cache s; ks_waiting := ks_waiting s;
                             ks_told := ks_told s ++ [k] |}
      | Done (Asked r) => {| ks_sys := ks_sys s; ks_cache := ks_cache s; ks_waiting := ks_waiting s ++ [r];
                             ks_told := ks_told s |}
      end
  | KReply i answer =>
      match nth_error (ks_waiting s) i with
      | None => s
      | Some _ =>
          let rest := firstn i (ks_waiting s) ++ skipn (S i) (ks_waiting s) in
          match lazy_resume answer with
          | Panic _ => {| ks_sys := ks_sys s; ks_cache := ks_cache s; ks_waiting := rest; ks_told := ks_told s |}
          | Done (cache, k) => {| ks_sys := ks_sys s; ks_cache := cache; ks_waiting := rest; ks_told := ks_told s ++ [k] |}
          end
      end
  end.

(** Histories: [env] as in Sys.v, [menv] about the management canister *)
Inductive kreach (env : Sys -> Label -> Prop) (menv : KeyRequest -> option (list N) -> Prop) : KSys -> Prop :=
| kreach_init now a s : sys_init now a = Done s ->
    kreach env menv {| ks_sys := s; ks_cache := None; ks_waiting := []; ks_told := [] |}
| kreach_move s l : kreach env menv s -> env (ks_sys s) l -> kreach env menv (kstep s (KMove l))
| kreach_look s : kreach env menv s -> kreach env menv (kstep s KLook)
| kreach_reply s i answer : kreach env menv s ->
    (forall r, nth_error (ks_waiting s) i = Some r -> menv r answer) -> kreach env menv (kstep s (KReply i answer)).
End Key.
Arguments ks_sys {_}. Arguments ks_cache {_}. Arguments ks_waiting {_}. Arguments ks_told {_}.
