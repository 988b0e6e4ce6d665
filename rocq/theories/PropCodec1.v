(** * C41 transfer calldata, C45 addresses, C50 networks *)

From Verif Require Import Base Bytes Types Amount Network CallData Hex CodecFacts.

(** ** C41 *)

(** Decoding an encoded transfer returns the recipient and the amount. *)
Theorem C41_calldata_round_trip :
  forall to value, is_address to -> value < 2 ^ 256 ->
    calldata_decode (calldata_encode to value) = Done (ROk (to, value)).
Proof. exact calldata_round_trip'. Qed.
Print Assumptions C41_calldata_round_trip.

(** Only encodings of transfers decode. *)
Theorem C41_only_transfers_decode :
  forall data to value, byte_list data ->
    calldata_decode data = Done (ROk (to, value)) ->
    is_address to /\ value < 2 ^ 256 /\ data = calldata_encode to value.
Proof. exact calldata_decode_ok'. Qed.
Print Assumptions C41_only_transfers_decode.

(** The encoded bytes: 4-byte selector a9059cbb, 12 zero bytes, 20 address bytes, 32
    amount bytes. *)
Theorem C41_calldata_layout :
  forall to value, is_address to -> value < 2 ^ 256 ->
    exists p q, calldata_encode to value = [169; 5; 156; 187] ++ repeat 0 12 ++ p ++ q /\
      List.length p = 20%nat /\ of_be p = to /\ List.length q = 32%nat /\ of_be q = value.
Proof. exact calldata_layout. Qed.
Print Assumptions C41_calldata_layout.

(** The decoder panics on exactly the well-sized transfer calls whose address word has
    a non-zero byte among its first twelve (code: [unwrap], transactions/mod.rs 1213).
    So "data of any other shape is rejected" fails for these: they panic instead. *)
Theorem C41_decoder_panics_refuted :
  exists data, byte_list data /\ List.length data = 68%nat /\
    (exists msg, calldata_decode data = Panic msg).
Proof. exact calldata_decode_panics. Qed.
Print Assumptions C41_decoder_panics_refuted.

Theorem C41_decoder_panics_iff :
  forall data, byte_list data ->
    ((exists msg, calldata_decode data = Panic msg) <->
     List.length data = 68%nat /\ firstn 4 data = [169; 5; 156; 187] /\
     firstn 12 (skipn 4 data) <> repeat 0 12).
Proof. exact calldata_decode_panic_iff. Qed.
Print Assumptions C41_decoder_panics_iff.

Example C41_witness :
  calldata_decode (calldata_encode 12345 (2 ^ 255)) = Done (ROk (12345, 2 ^ 255)) /\
  calldata_decode [1; 2; 3; 4; 5] = Done (RErr UnknownSelector) /\ is_address 12345.
Proof. vm_compute. auto. Qed.

(** ** C45 *)

(** Formatting an address (EIP-55 mixed case, for any 32-byte hash) and parsing it back
    is the identity. *)
Theorem C45_text_round_trip :
  forall keccak a, (forall l, List.length (keccak l) = 32%nat) -> is_address a ->
    address_of_text (address_to_text keccak a) = Some a.
Proof. exact address_text_round_trip. Qed.
Print Assumptions C45_text_round_trip.

(** A text is accepted iff it is "0x" followed by forty hexadecimal digits (either
    case), and then the result is an address. *)
Definition hex_digit_char (c : N) : Prop :=
  48 <= c <= 57 \/ 65 <= c <= 70 \/ 97 <= c <= 102.
Theorem C45_text_accepted_iff :
  forall s,
    (exists a, is_address a /\ address_of_text s = Some a) <->
    (exists t, s = [48; 120] ++ t /\ List.length t = 40%nat /\ Forall hex_digit_char t).
Proof. exact address_of_text_iff'. Qed.
Print Assumptions C45_text_accepted_iff.

(** A 32-byte word is an address iff its 12 leading bytes are zero; the address is then
    the number written in the last 20 bytes, and padding it gives the word back. *)
Theorem C45_words :
  forall w a, List.length w = 32%nat -> byte_list w ->
    (address_of_word w = Some a <->
     firstn 12 w = repeat 0 12 /\ a = of_be (skipn 12 w)) /\
    (address_of_word w = Some a -> is_address a /\ address_to_word a = w) /\
    (is_address a -> address_of_word (address_to_word a) = Some a).
Proof. exact address_words. Qed.
Print Assumptions C45_words.

(** A destination is accepted iff it is a valid non-zero address. *)
Theorem C45_destination :
  forall s a, validate_address_as_destination s = ROk a <-> address_of_text s = Some a /\ a <> 0.
Proof. exact destination_iff. Qed.
Print Assumptions C45_destination.

Example C45_witness :
  validate_address_as_destination (map N.of_nat (List.repeat 48 42)%nat) = RErr AddrInvalid /\
  validate_address_as_destination ([48; 120] ++ List.repeat 48 40) = RErr (AddrNotSupported 0) /\
  validate_address_as_destination ([48; 120] ++ List.repeat 70 40) = ROk (2 ^ 160 - 1).
Proof. vm_compute. auto. Qed.

(** ** C50 *)

Theorem C50_chain_ids_one_to_one :
  (forall n, network_of_chain_id (chain_id n) = Some n) /\
  (forall id n, network_of_chain_id id = Some n -> chain_id n = id) /\
  (forall n m, chain_id n = chain_id m -> n = m) /\
  (forall id, (forall n, chain_id n <> id) -> network_of_chain_id id = None).
Proof. exact chain_ids_one_to_one. Qed.
Print Assumptions C50_chain_ids_one_to_one.

Theorem C50_two_providers :
  forall n, NoDup (get_providers n) /\ (2 <= List.length (get_providers n))%nat.
Proof. exact two_providers. Qed.
Print Assumptions C50_two_providers.

(** The identifiers are those the networks themselves use, from the public list of EIP-155
    chain ids. A transaction for another id would be rejected there, or be valid elsewhere. *)
Definition eip155_ids : list (N * EvmNetwork) :=
  [(1, Ethereum); (10, Optimism); (56, BSC); (97, BSCTestnet); (137, Polygon); (250, Fantom); (8453, Base_);
   (42161, ArbitrumOne); (43114, Avalanche); (11155111, Sepolia)].
Theorem C50_published_ids :
  forall id n, (chain_id n = id <-> In (id, n) eip155_ids) /\ (network_of_chain_id id = Some n <-> In (id, n) eip155_ids).
Proof.
  destruct chain_ids_one_to_one as (H1 & H2 & _).
  assert (H : forall id n, chain_id n = id <-> In (id, n) eip155_ids).
  { intros id n. split; [intros <-; destruct n; cbn; tauto|]. cbn. intros H.
    repeat destruct H as [H|H]; try (injection H as <- <-; reflexivity). destruct H. }
  intros id n. split; [apply H|]. rewrite <- H. split; [apply H2|]. intros <-. apply H1.
Qed.
Print Assumptions C50_published_ids.

Example C50_witness : chain_id BSC = 56 /\ network_of_chain_id 2 = None.
Proof. vm_compute. auto. Qed.
