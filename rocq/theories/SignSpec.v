(** * Histories in which the signatures are those of the signing service (specification of
    C82). *)

From Verif Require Import Base BMap MultiKeyMap Bytes Types Amount Tx CallData Network Hex
  Transactions State Audit Ranges Rlp Parser Memo Driver Sys SysSpec CborSpec TypedSpec Sign NetSpec.

Section Signing.
Variable keccak : list N -> Hash.
Variable Key : Type.
Variable recovery_id : Key -> Hash -> list N -> option (bool * bool).
Variable recover : Hash -> bool -> N -> N -> option Key.

(** The library finds ids under which the key is recovered. This says nothing about the
    bytes: if they are no signature of the hash by the key, there is no id. *)
Definition ids_recover : Prop :=
  forall key d sig y, List.length sig = 64%nat -> recovery_id key d sig = Some (false, y) ->
    recover d y (of_be (firstn 32 sig)) (of_be (skipn 32 sig)) = Some key.

(** The signatures given to the canister are made by [sign_tx], one for each transaction
    of the batch and in its order (withdraw.rs 296-299 [join_all]), from whatever the
    management canister answers. *)
Definition signs (key : Key) (t : Tx) (o : option Signature) : Prop :=
  exists answer, sign_tx keccak Key recovery_id key t answer = Done o.
Definition signed_here (key : Key) (s : Sys) (l : Label) : Prop :=
  match l with
  | LAnswer id (ReSigs sigs) =>
      forall count batch r, bget id (sys_tasks s) = Some {| fl_task := TRetrieveSign count batch; fl_reply := r |} ->
        forall b t o, In ((b, t), o) (combine batch sigs) -> signs key t o
  | _ => True
  end.
Definition signing_env (key : Key) (s : Sys) (l : Label) : Prop :=
  ok_label l /\ nonce_kept s l /\ signed_here key s l.

(** What the network makes of a signed transaction of the minter *)
Definition accepted_as (key : Key) (net : EvmNetwork) (t : SignedTx) : Prop :=
  let raw := raw_bytes (st_tx t) (st_sig t) in
  sent_by keccak Key recover key (st_tx t) raw /\ tx_chain_id (st_tx t) = chain_id net /\ st_hash t = keccak raw.
End Signing.
