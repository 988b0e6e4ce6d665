(** * Sign: how a transaction is signed.

    Model of /repo/minter/src/tx.rs 521-562, 578-603, 885-891 and of what it calls in
    /repo/minter/src/management.rs. The management canister and the elliptic-curve library
    are arbitrary: what the former answers is an argument, the latter is [recovery_id]. *)

From Verif Require Import Base Bytes Types Rlp.

Section Sign.
Variable keccak : list N -> Hash.
(** The minter's public key, state.rs 751-787 [lazy_call_ecdsa_public_key]. The key name
    never changes and the derivation path is the empty one, as it is for signatures (tx.rs
    543, [MAIN_DERIVATION_PATH]), so that there is one key for the life of the canister. *)
Variable Key : Type.
(** [ic_secp256k1::PublicKey::try_recovery_from_digest]: whether the x-coordinate is reduced
    and whether the y-coordinate is odd, for the id under which the signature recovers to
    the key; [None] is an error. *)
Variable recovery_id : Key -> Hash -> list N -> option (bool * bool).

(** tx.rs 521-526 [Eip1559TransactionRequest::hash] *)
Definition signing_hash (t : Tx) : Hash := keccak (signing_payload t).

(** tx.rs 885-891 [split_in_two], on an array of 64 bytes *)
Definition split_in_two (a : list N) : list N * list N := (firstn 32 a, skipn 32 a).

(** tx.rs 538-562 [sign]: [answer] is what [sign_with_ecdsa] returns, [None] an error of the
    management canister. [Done None] is the error the caller logs (withdraw.rs 303-313),
    after which the transaction stays unsigned. The check of the signature in
    [compute_recovery_id] is a [debug_assert], absent from the deployed program. *)
Definition sign_tx (key : Key) (t : Tx) (answer : option (list N)) : res (option Signature) :=
  match answer with
  | None => Done None
  | Some sig =>
      if negb (Nat.eqb (List.length sig) 64) then
        Panic "BUG: invalid signature from management canister. Expected 64 bytes"
      else
        match recovery_id key (signing_hash t) sig with
        | None => Panic "BUG: failed to recover public key"
        | Some (x_reduced, y_odd) =>
            if x_reduced then Done None
            else
              let (r, s) := split_in_two sig in
              Done (Some {| sg_y_parity := y_odd; sg_r := of_be r; sg_s := of_be s |})
        end
  end.

End Sign.
