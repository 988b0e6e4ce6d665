(** * Specification of C48: fee estimates *)

From Verif Require Import Base Bytes Types Amount Tx State Driver Sys SysSpec.

(** [m] is the element of rank [length l / 2]: it is an element of [l], at most half of the
    elements are smaller, and more than half are at most [m]. *)
Definition is_median (m : N) (l : list N) : Prop :=
  In m l /\ (List.length (filter (fun x => x <? m)%N l) <= List.length l / 2)%nat /\
  (List.length l / 2 < List.length (filter (fun x => x <=? m)%N l))%nat.

(** The largest price per gas of an estimate: twice the base fee plus the tip *)
Definition max_price (g : GasFeeEstimate) : N := 2 * gf_base_fee_per_gas g + gf_max_priority_fee_per_gas g.

(** An estimate the minter may use: no overflow and at least the configured tip *)
Definition usable (min_tip : N) (g : GasFeeEstimate) : Prop :=
  max_price g <= U256_MAX /\ min_tip <= gf_max_priority_fee_per_gas g.

(** Thirty seconds after [t], as a u64 *)
Definition half_minute_after (t : N) : N := N.min (t + 30 * 10 ^ 9) (2 ^ 64 - 1).
(** The fee charged for a token transfer, of 65000 gas *)
Definition erc20_charge (g : GasFeeEstimate) : N := N.min (max_price g * 65000) U256_MAX.

(** The estimate a fee history stands for: the last base fee, and the median of all rewards
    raised to the configured minimum *)
Definition read_history (min_tip : N) (h : FeeHistory) (g : GasFeeEstimate) : Prop :=
  exists older base m, fh_base_fee_per_gas h = older ++ [base] /\ is_median m (List.concat (fh_reward h)) /\
    g = {| gf_base_fee_per_gas := base; gf_max_priority_fee_per_gas := N.max m min_tip |}.
