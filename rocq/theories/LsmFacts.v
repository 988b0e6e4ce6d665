(** * Proofs about the registration with the ledger suite manager *)

From Verif Require Import Base BMap MultiKeyMap Bytes Types Amount Tx CallData Network Hex Transactions State
  Audit Ranges Rlp Parser Memo Driver Sys SysSpec StateEquiv SysFacts CoreInv LogFacts WeakSteps WithdrawSpec
  WithdrawFacts Segments UpgradeSpec UpgradeFacts Lsm.

(** The facts of the installation that nothing changes *)
Definition installed (s : State) (h : list EventType) : Prop :=
  exists a rest, h = EvInit a :: rest /\ evm_network s = ia_evm_network a /\
    native_ledger_id s = ia_native_ledger_id a /\ native_index_id s = ia_native_index_id a /\
    native_symbol s = ia_native_symbol a /\ ledger_suite_manager_id s = Some (ia_ledger_suite_manager_id a) /\
    ecdsa_key_name s = ia_ecdsa_key_name a.

Lemma installed_same s s' h e : same_const s s' -> installed s h -> installed s' (h ++ e).
Proof.
  intros (E1 & E2 & E3 & E4 & _ & E5 & E6) (a & rest & -> & H1 & H2 & H3 & H4 & H5 & H6).
  exists a, (rest ++ e). split; [reflexivity|]. repeat split; congruence.
Qed.
Lemma installed_init a s : state_of_init a = ROk s -> installed s [EvInit a].
Proof.
  intros H. apply state_of_init_spec in H as (_ & h & _ & -> & _). exists a, []. repeat split.
Qed.
Lemma installed_event s e s' h : installed s h -> apply_state_transition s e = Done s' -> installed s' (h ++ [e]).
Proof. intros Hi H. apply apply_same in H as [H _]. eapply installed_same; eauto. Qed.
Lemma installed_replay log s : replay_events log = Done s -> installed s (history log).
Proof.
  unfold replay_events. destruct log as [|e log]; [discriminate|]. destruct (ev_payload e) eqn:E; try discriminate.
  destruct (state_of_init a) as [s0|] eqn:E0; [|discriminate]. intros H.
  apply installed_init in E0. unfold history. cbn [map]. rewrite E. change (EvInit a :: map ev_payload log) with ([EvInit a] ++ map ev_payload log).
  revert s0 E0 H. generalize [EvInit a]. induction log as [|x log IH]; intros h s0 Ha H; cbn [rfold map] in *.
  - injection H as <-. rewrite app_nil_r. auto.
  - apply rbind_done in H as (s1 & H1 & H). change (ev_payload x :: map ev_payload log) with ([ev_payload x] ++ map ev_payload log).
    rewrite app_assoc. apply (IH _ s1); auto. eapply installed_event; eauto.
Qed.

Section Reach.
Variable self : Principal.
Variable keccak : list N -> Hash.

Lemma installed_reach (env : Sys -> Label -> Prop) s : reach self keccak env s -> installed (sys_state s) (history (sys_log s)).
Proof.
  apply (reach_inv self keccak env (fun s => installed (sys_state s) (history (sys_log s)))).
  - intros now a s0 H. apply sys_init_inv in H as (st & H1 & H2 & _). unfold sys_state, sys_log. rewrite H2. cbn [fst snd].
    apply installed_init; auto.
  - intros s0 l s' IH _ H. unfold sys_state, sys_log in *. apply trans_wmicros in H as [(now & H)|(a & now & _ & _ & H)].
    + revert H IH. generalize (sys_core s0), (sys_core s').
      apply (wmicros_inv (step_emits keccak s0 l) now (fun c => installed (fst c) (history (snd c)))).
      intros c c' Hc H. inversion H; subst; cbn [fst snd] in *.
      * rewrite <- (app_nil_r (history _)). eapply installed_same; [|exact Hc]. destruct H0 as (v & ->). repeat split.
      * rewrite history_snoc. eapply installed_event; eauto.
      * rewrite <- (app_nil_r (history _)). eapply installed_same; [|exact Hc]. repeat split.
    + unfold canister_upgrade, post_upgrade in H. apply rbind_done in H as (st & H1 & H). apply installed_replay in H1.
      destruct a as [x|].
      * apply process_event_inv in H as (s1 & Ha & ->). cbn [fst snd]. rewrite history_snoc. eapply installed_event; eauto.
      * injection H as <-. exact H1.
Qed.

Lemma lsm_called (env : Sys -> Label -> Prop) sha256 file s : reach self keccak env s ->
  exists a rest call, history (sys_log s) = EvInit a :: rest /\
    lsm_call sha256 file (sys_state s) = Done (ia_ledger_suite_manager_id a, call) /\
    call = new_native_ls sha256 file (ia_native_symbol a) (ia_native_ledger_id a) (ia_native_index_id a)
             (chain_id (ia_evm_network a)).
Proof.
  intros Hr. destruct (installed_reach env s Hr) as (a & rest & Hh & H1 & H2 & H3 & H4 & H5 & _).
  exists a, rest. eexists. split; [exact Hh|]. split; [|reflexivity].
  unfold lsm_call. rewrite H5. cbn [expect rbind]. congruence.
Qed.
End Reach.

Lemma hex_digit_inj a b : a < 16 -> b < 16 -> hex_digit a = hex_digit b -> a = b.
Proof. unfold hex_digit. intros Ha Hb. destruct (N.ltb_spec a 10), (N.ltb_spec b 10); lia. Qed.
Lemma hex_encode_inj l l' : byte_list l -> byte_list l' -> hex_encode l = hex_encode l' -> l = l'.
Proof.
  unfold hex_encode, byte_list. revert l'.
  induction l as [|x l IH]; intros [|y l'] H H' E; try reflexivity; try discriminate E.
  inversion H; inversion H'; subst. cbn [flat_map app] in E. injection E as E1 E2 E.
  f_equal; [|apply IH; auto].
  apply hex_digit_inj in E1; [|apply N.div_lt_upper_bound; lia|apply N.div_lt_upper_bound; lia].
  apply hex_digit_inj in E2; [|apply N.mod_lt; lia|apply N.mod_lt; lia].
  rewrite (N.div_mod x 16), (N.div_mod y 16) by lia. congruence.
Qed.
