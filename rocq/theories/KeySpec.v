(** * Specification of C86: the minter's account *)

From Verif Require Import Base BMap Bytes Types Tx Transactions State Audit Driver Sys SysSpec Rlp NetSpec Key.

(** The Yellow Paper, appendix F: the account of a public key is the rightmost 160 bits of the
    hash of its 64 bytes. [encode] gives 65 bytes, the first of which marks the form. *)
Definition account (keccak : list N -> Hash) {Key} (encode : Key -> list N) (k : Key) : Address :=
  keccak (tl (encode k)) mod 2 ^ 160.

(** The management canister keeps the keys: for the same name and path it answers with the same
    key, unless it fails. *)
Definition keeps_keys (pub : text -> list (list N) -> list N) (r : KeyRequest) (answer : option (list N)) : Prop :=
  match answer with Some b => b = pub (kr_name r) (kr_path r) | None => True end.
Definition any_answer (r : KeyRequest) (answer : option (list N)) : Prop := True.

(** The key name of the installation *)
Definition key_name (h : list EventType) : option text :=
  match h with EvInit a :: _ => Some (ia_ecdsa_key_name a) | _ => None end.

(** The network takes [raw] for a transaction from the account [a] *)
Definition sent_from (keccak : list N -> Hash) {Key} (encode : Key -> list N) (recover : Hash -> bool -> N -> N -> option Key)
  (a : Address) (t : Tx) (raw : list N) : Prop :=
  exists k, sent_by keccak Key recover k t raw /\ account keccak encode k = a.
