(** * Specification of C67: the settings in force, computed from the recorded events.

    The installation gives every setting, an upgrade changes those that it mentions. *)

From Verif Require Import Base Types Hex WithdrawSpec.

Record Config := {
  cf_network : EvmNetwork;
  cf_native_ledger : Principal;
  cf_manager : Principal;
  cf_helper : option Address;
  cf_minimum : N;
  cf_deposit_fee : N;       (** 0: no fee *)
  cf_withdrawal_fee : N;    (** 0: no fee *)
  cf_height : BlockTag
}.

Definition or_old {A} (o : option A) (old : A) : A := match o with Some x => x | None => old end.
Definition configure (c : option Config) (e : EventType) : option Config :=
  match e, c with
  | EvInit a, _ =>
      Some {| cf_network := ia_evm_network a; cf_native_ledger := ia_native_ledger_id a;
              cf_manager := ia_ledger_suite_manager_id a;
              cf_helper := match ia_helper_contract_address a with Some t => address_of_text t | None => None end;
              cf_minimum := ia_native_minimum_withdrawal_amount a;
              cf_deposit_fee := ia_deposit_native_fee a; cf_withdrawal_fee := ia_withdrawal_native_fee a;
              cf_height := ia_block_height a |}
  | EvUpgrade a, Some c =>
      Some {| cf_network := cf_network c; cf_native_ledger := cf_native_ledger c; cf_manager := cf_manager c;
              cf_helper := match ua_helper_contract_address a with Some t => address_of_text t | None => cf_helper c end;
              cf_minimum := or_old (ua_native_minimum_withdrawal_amount a) (cf_minimum c);
              cf_deposit_fee := or_old (ua_deposit_native_fee a) (cf_deposit_fee c);
              cf_withdrawal_fee := or_old (ua_withdrawal_native_fee a) (cf_withdrawal_fee c);
              cf_height := or_old (ua_block_height a) (cf_height c) |}
  | _, _ => c
  end.
Definition configured (h : list EventType) : option Config := fold_left configure h None.

(** How a fee is shown *)
Definition shown_fee (n : N) : option N := if n =? 0 then None else Some n.
