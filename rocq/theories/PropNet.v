(** * C42: the network reads the minter's transactions *)

From Verif Require Import Base Bytes Types Hex Rlp RlpSpec NetSpec NetFacts.

(** ** C42: the format is the network's *)

(** The network reads from the raw bytes the transaction and the signature that the minter
    put there, and from the bytes that are signed the transaction. *)
Theorem C42_network_reads_back :
  forall t s, tx_typed t -> sig_typed s ->
    (fits_memory (raw_bytes t s) -> read_raw (raw_bytes t s) = Some (t, s)) /\
    (fits_memory (signing_payload t) -> read_unsigned (signing_payload t) = Some t).
Proof. split; [apply read_raw_bytes|apply read_unsigned_payload]; auto. Qed.
Print Assumptions C42_network_reads_back.

(** No other bytes are read as that transaction: its encoding is not malleable. *)
Theorem C42_no_other_bytes :
  forall raw, byte_list raw ->
    (forall t s, read_raw raw = Some (t, s) -> raw = raw_bytes t s) /\
    (forall t, read_unsigned raw = Some t -> raw = signing_payload t).
Proof. intros raw H. split; [intros t s; apply read_raw_inv; auto|intros t; apply read_unsigned_inv; auto]. Qed.
Print Assumptions C42_no_other_bytes.

Definition bytes_of_hex (s : string) : list N :=
  match hex_decode_to (String.length s / 2) (text_of s) with Some l => l | None => [] end.

(** a transaction on Sepolia, tests.rs 454-494 *)
Definition sepolia_tx : Tx :=
  {| tx_chain_id := 11155111; tx_nonce := 6; tx_max_priority_fee_per_gas := 1500000000;
     tx_max_fee_per_gas := 1501975501; tx_gas_limit := 56511;
     tx_destination := of_be (bytes_of_hex "b44B5e756A894775FC32EDdf3314Bb1B1944dC34");
     tx_amount := 1000000000000000;
     tx_data := bytes_of_hex "b214faa51d882d15b09f8e81e29606305f5fefc5eff3e2309620a3557ecae39d62020000";
     tx_access_list := [] |}.
Definition sepolia_sig : Signature :=
  {| sg_y_parity := true;
     sg_r := of_be (bytes_of_hex "7d097b81dc8bf5ad313f8d6656146d4723d0e6bb3fb35f1a709e6a3d4426c0f3");
     sg_s := of_be (bytes_of_hex "4f8a618d959e7d96e19156f0f5f2ed321b34e2004a0c8fdb7f02bc7d08b74441") |}.

(** A transaction of the Sepolia network, read from the bytes found there, and some bytes
    that are no transaction: a length and a number that are not in their shortest form, a
    byte too many, another type *)
Example C42_network_witness :
  let raw := bytes_of_hex "02f89883aa36a7068459682f0084598653cd82dcbf94b44b5e756a894775fc32eddf3314bb1b1944dc3487038d7ea4c68000a4b214faa51d882d15b09f8e81e29606305f5fefc5eff3e2309620a3557ecae39d62020000c001a07d097b81dc8bf5ad313f8d6656146d4723d0e6bb3fb35f1a709e6a3d4426c0f3a04f8a618d959e7d96e19156f0f5f2ed321b34e2004a0c8fdb7f02bc7d08b74441" in
  read_raw raw = Some (sepolia_tx, sepolia_sig) /\ raw = raw_bytes sepolia_tx sepolia_sig /\
  read_raw (raw ++ [0]) = None /\ read_raw (1 :: tl raw) = None /\ read_unsigned raw = None /\
  read_items 9 [184; 1; 200] = None /\ read_items 9 [129; 5] = None /\ read_items 9 [129; 200] = Some [RStr [200]] /\
  read_num [0; 1] = None /\ read_num [1; 0] = Some 256.
Proof. vm_compute. repeat split. Qed.
