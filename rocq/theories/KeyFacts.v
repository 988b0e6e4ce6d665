(** * Proofs about the minter's key *)

From Verif Require Import Base BMap MultiKeyMap Bytes Types Amount Tx CallData Network Hex Transactions State
  Audit Ranges Rlp Parser Memo Driver Sys SysSpec StateEquiv SysFacts CoreInv WithdrawSpec UpgradeSpec Lsm LsmFacts
  CborSpec TypedSpec Sign NetSpec SignSpec SignFacts Key KeySpec.

Section Key.
Variable self : Principal.
Variable keccak : list N -> Hash.
Variable Key : Type.
Variable decode : list N -> option Key.
Variable encode : Key -> list N.
Notation kreach := (kreach self keccak Key decode).
Notation kstep := (kstep self keccak Key decode).

Lemma kreach_reach env menv s : kreach env menv s -> reach self keccak env (ks_sys s).
Proof.
  induction 1 as [now a s H|s l H IH He|s H IH|s i ans H IH Hm].
  - exact (reach_init _ _ _ now a s H).
  - unfold Key.kstep. destruct (ks_waiting s), (is_upgrade l); try exact IH; cbn [ks_sys]; apply reach_step; auto.
  - unfold Key.kstep. destruct (lazy_start _ _ _ _) as [[k|r]|]; exact IH.
  - unfold Key.kstep. destruct (nth_error _ _) as [w0|]; [|exact IH]. destruct (lazy_resume _ _ _) as [[c k]|]; exact IH.
Qed.

Definition decodes (c : option (list N)) : Prop :=
  match c with Some b => decode b <> None | None => True end.
Lemma resume_inv ans c k : lazy_resume Key decode ans = Done (c, k) -> exists b, ans = Some b /\ c = Some b /\ decode b = Some k.
Proof.
  unfold lazy_resume, to_public_key. destruct ans as [b|]; [|discriminate]. destruct (decode b) as [k'|] eqn:E; [|discriminate].
  cbn [rbind]. intros H. injection H as <- <-. exists b. auto.
Qed.
Lemma start_inv c st x : lazy_start Key decode c st = Done x ->
  match x with
  | Known _ k => exists b, c = Some b /\ decode b = Some k
  | Asked _ r => c = None /\ r = {| kr_name := ecdsa_key_name st; kr_path := [] |}
  end.
Proof.
  unfold lazy_start, to_public_key. destruct c as [b|].
  - destruct (decode b) as [k|] eqn:E; [|discriminate]. cbn [rbind]. intros H. injection H as <-. exists b. auto.
  - intros H. injection H as <-. auto.
Qed.

Lemma cache_decodes env menv s : kreach env menv s -> decodes (ks_cache s).
Proof.
  induction 1 as [now a s H|s l H IH He|s H IH|s i ans H IH Hm].
  - exact Logic.I.
  - unfold Key.kstep. destruct (ks_waiting s), (is_upgrade l); try exact IH; cbn [ks_cache];
      (destruct (upgraded (ks_sys s) l); [exact Logic.I|exact IH]).
  - unfold Key.kstep. destruct (lazy_start _ _ _ _) as [[k|r]|]; exact IH.
  - unfold Key.kstep. destruct (nth_error _ _) as [w0|]; [|exact IH]. destruct (lazy_resume _ _ _) as [[c k]|] eqn:E; [|exact IH].
    apply resume_inv in E as (b & _ & -> & E). cbn. congruence.
Qed.

Lemma name_reach env s : reach self keccak env s -> key_name (history (sys_log s)) = Some (ecdsa_key_name (sys_state s)).
Proof. intros Hr. destruct (installed_reach self keccak env s Hr) as (a & rest & -> & _ & _ & _ & _ & _ & ->). reflexivity. Qed.

Lemma key_name_kept h e : key_name h <> None -> key_name (h ++ e) = key_name h.
Proof. destruct h as [|[] h]; cbn; congruence. Qed.
(** The key name in the history never changes *)
Lemma name_step env s l n : reach self keccak env s -> env s l -> key_name (history (sys_log s)) = Some n ->
  key_name (history (sys_log (step self keccak s l))) = Some n.
Proof.
  intros Hr He Hn. destruct (LogFacts.trans_grows keccak self s l (step self keccak s l) (step_trans self keccak s l)) as (e & E & _).
  unfold sys_log in *. rewrite E. unfold history in *. rewrite map_app, key_name_kept by congruence. exact Hn.
Qed.

Lemma in_drop {A} (x : A) i l : In x (firstn i l ++ skipn (S i) l) -> In x l.
Proof.
  intros H. apply in_app_or in H as [H|H].
  - rewrite <- (firstn_skipn i l). apply in_or_app. auto.
  - rewrite <- (firstn_skipn (S i) l). apply in_or_app. auto.
Qed.

(** All about the one key *)
Definition one_key (pub : text -> list (list N) -> list N) (s : KSys Key) : Prop :=
  exists n, key_name (history (sys_log (ks_sys s))) = Some n /\
    (forall r, In r (ks_waiting s) -> r = {| kr_name := n; kr_path := [] |}) /\
    (forall b, ks_cache s = Some b -> b = pub n []) /\
    (forall k, In k (ks_told s) -> decode (pub n []) = Some k).

Lemma one_key_reach env pub s : kreach env (keeps_keys pub) s -> one_key pub s.
Proof.
  induction 1 as [now a s H|s l H IH He|s H IH|s i ans H IH Hm].
  - exists (ia_ecdsa_key_name a). split; [|split; [intros ? []|split; [discriminate|intros ? []]]].
    apply sys_init_inv in H as (st & _ & H2 & _). cbn [ks_sys]. unfold sys_log. rewrite H2. reflexivity.
  - unfold Key.kstep. destruct IH as (n & I1 & I2 & I3 & I4). pose proof (kreach_reach _ _ _ H) as Hr.
    pose proof (name_step env (ks_sys s) l n Hr He I1) as Hn.
    assert (Hc : forall b, (if upgraded (ks_sys s) l then None else ks_cache s) = Some b -> b = pub n []).
    { intros b. destruct (upgraded (ks_sys s) l); [discriminate|apply I3]. }
    assert (Hw : one_key pub {| ks_sys := step self keccak (ks_sys s) l; ks_cache := if upgraded (ks_sys s) l then None else ks_cache s;
        ks_waiting := ks_waiting s; ks_told := ks_told s |} /\ one_key pub s).
    { split; exists n; auto. }
    destruct Hw as (K1 & K2). destruct (ks_waiting s) as [|w ws] eqn:Ew, (is_upgrade l); auto.
  - pose proof (kreach_reach _ _ _ H) as Hr. pose proof (name_reach _ _ Hr) as Hname.
    unfold Key.kstep. destruct IH as (n & I1 & I2 & I3 & I4). rewrite I1 in Hname. injection Hname as Hname.
    destruct (lazy_start _ _ _ _) as [[k|r]|] eqn:E; [| |exists n; auto]; apply start_inv in E; exists n; cbn [ks_sys ks_cache ks_waiting ks_told].
    + destruct E as (b & Eb & E). split; [exact I1|]. split; [exact I2|]. split; [exact I3|]. intros x Hx.
      apply in_app_or in Hx as [Hx|[<-|[]]]; [auto|]. rewrite <- (I3 b Eb). exact E.
    + destruct E as [Ec ->]. split; [exact I1|]. split; [|split; [exact I3|exact I4]]. intros r Hx.
      apply in_app_or in Hx as [Hx|[<-|[]]]; [auto|]. congruence.
  - unfold Key.kstep. destruct IH as (n & I1 & I2 & I3 & I4).
    destruct (nth_error _ _) as [r|] eqn:En; [|exists n; auto]. specialize (Hm r eq_refl).
    apply nth_error_In in En. apply I2 in En. subst r.
    destruct (lazy_resume _ _ _) as [[c k]|] eqn:E; exists n; cbn [ks_sys ks_cache ks_waiting ks_told].
    + apply resume_inv in E as (b & -> & -> & E). cbn in Hm. subst b. split; [exact I1|]. split; [|split].
      * intros r Hx. apply in_drop in Hx. auto.
      * intros b Eb. congruence.
      * intros x Hx. apply in_app_or in Hx as [Hx|[<-|[]]]; auto.
    + split; [exact I1|]. split; [|split; auto]. intros r Hx. apply in_drop in Hx. auto.
Qed.

(** address.rs computes the account *)
Lemma skipn_be m n x : skipn m (be_bytes (m + n) x) = be_bytes n x.
Proof.
  revert x. induction n as [|n IH]; intros x.
  - rewrite Nat.add_0_r. apply skipn_all2. rewrite be_bytes_length. lia.
  - rewrite Nat.add_succ_r. cbn [be_bytes]. rewrite skipn_app, IH, be_bytes_length.
    replace (m - (m + n))%nat with 0%nat by lia. reflexivity.
Qed.
Lemma address_account k : ecdsa_public_key_to_address keccak Key encode k = account keccak encode k.
Proof.
  unfold ecdsa_public_key_to_address, account.
  replace (tl (encode k)) with (skipn 1 (encode k)) by (destruct (encode k); reflexivity).
  generalize (keccak (skipn 1 (encode k))). intros h.
  rewrite (skipn_be 12 20 h : skipn 12 (be_bytes 32 h) = _).
  rewrite firstn_all2 by (rewrite be_bytes_length; lia). rewrite of_be_be_bytes. reflexivity.
Qed.

Lemma told_account env pub s : kreach env (keeps_keys pub) s ->
  exists n, key_name (history (sys_log (ks_sys s))) = Some n /\
    (forall k, In k (ks_told s) -> decode (pub n []) = Some k /\ ecdsa_public_key_to_address keccak Key encode k = account keccak encode k) /\
    (minter_address keccak Key decode encode (ks_cache s) = Done None \/
     exists k, decode (pub n []) = Some k /\ minter_address keccak Key decode encode (ks_cache s) = Done (Some (account keccak encode k))).
Proof.
  intros H. pose proof (cache_decodes _ _ _ H) as Hd. destruct (one_key_reach _ _ _ H) as (n & I1 & I2 & I3 & I4). exists n. split; [exact I1|]. split.
  - intros k Hk. split; [auto|apply address_account].
  - unfold minter_address, to_public_key. destruct (ks_cache s) as [b|]; [right|left; reflexivity]. cbn in Hd.
    specialize (I3 b eq_refl). subst b. destruct (decode (pub n [])) as [k|]; [|congruence]. exists k. split; [reflexivity|].
    cbn [rbind]. rewrite address_account. reflexivity.
Qed.

Lemma address_told env menv s : kreach env menv s ->
  exists o, minter_address keccak Key decode encode (ks_cache s) = Done o.
Proof.
  intros H. apply cache_decodes in H. unfold minter_address, to_public_key. destruct (ks_cache s) as [b|]; [|eauto].
  cbn in H. destruct (decode b); [|congruence]. cbn [rbind]. eauto.
Qed.

Lemma look_answers env menv s : kreach env menv s -> forall c k, ks_cache s = Some c -> decode c = Some k ->
  ks_told (kstep s (KLook)) = ks_told s ++ [k].
Proof.
  intros H c k Hc Hk. unfold Key.kstep, lazy_start, to_public_key. rewrite Hc, Hk. reflexivity.
Qed.

(** What is asked *)
Lemma asked_key env menv s r : kreach env menv s -> In r (ks_waiting s) ->
  key_name (history (sys_log (ks_sys s))) = Some (kr_name r) /\ kr_path r = [].
Proof.
  intros H. revert r. induction H as [now a s H|s l H IH He|s H IH|s i ans H IH Hm]; intros r Hr.
  - destruct Hr.
  - pose proof (kreach_reach _ _ _ H) as Hk. unfold Key.kstep in *.
    destruct (ks_waiting s) as [|w ws] eqn:Ew, (is_upgrade l); cbn [ks_sys ks_waiting] in *; try (destruct Hr; fail).
    + rewrite Ew in Hr. apply IH. exact Hr.
    + apply IH in Hr as [Hr1 Hr2]. split; [|exact Hr2]. exact (name_step env (ks_sys s) l _ Hk He Hr1).
  - pose proof (name_reach _ _ (kreach_reach _ _ _ H)) as Hname. unfold Key.kstep in *.
    destruct (lazy_start _ _ _ _) as [[k|r']|] eqn:E; cbn [ks_sys ks_waiting] in *; auto.
    apply start_inv in E as [_ ->]. apply in_app_or in Hr as [Hr|[<-|[]]]; auto.
  - unfold Key.kstep in *. destruct (nth_error _ _) as [w0|]; [|auto]. destruct (lazy_resume _ _ _) as [[c k]|]; cbn [ks_sys ks_waiting] in *;
      apply in_drop in Hr; auto.
Qed.
Lemma sign_asked env menv s t : kreach env menv s ->
  key_name (history (sys_log (ks_sys s))) = Some (sr_name (sign_request keccak (sys_state (ks_sys s)) t)) /\
  sr_path (sign_request keccak (sys_state (ks_sys s)) t) = [].
Proof. intros H. split; [|reflexivity]. exact (name_reach _ _ (kreach_reach _ _ _ H)). Qed.

(** The name is the same at any two moments of a history *)
Lemma name_kstep env menv s l : kreach env menv s -> kreach env menv (kstep s l) ->
  (forall l', l = KMove l' -> env (ks_sys s) l') ->
  key_name (history (sys_log (ks_sys (kstep s l)))) = key_name (history (sys_log (ks_sys s))).
Proof.
  intros H H' He. pose proof (kreach_reach _ _ _ H) as Hr. pose proof (name_reach _ _ Hr) as Hn.
  destruct l as [l| |i ans]; unfold Key.kstep in *.
  - destruct (ks_waiting s), (is_upgrade l); try reflexivity; cbn [ks_sys]; rewrite Hn; eapply name_step; eauto.
  - destruct (lazy_start _ _ _ _) as [[k|r]|]; reflexivity.
  - destruct (nth_error _ _) as [w0|]; [|reflexivity]. destruct (lazy_resume _ _ _) as [[c k]|]; reflexivity.
Qed.

(** The network takes the minter's transactions for transactions of the account told *)
Lemma sender_told rid rec : ids_recover Key rid rec ->
  forall pub (key : Key) s, kreach (signing_env keccak Key rid key) (keeps_keys pub) s -> typed_start keccak (ks_sys s) ->
  (forall n, key_name (history (sys_log (ks_sys s))) = Some n -> decode (pub n []) = Some key) ->
  forall b t, In (EvSignedTransaction b t) (history (sys_log (ks_sys s))) ->
  forall a, (exists k, In k (ks_told s) /\ a = ecdsa_public_key_to_address keccak Key encode k) \/
            minter_address keccak Key decode encode (ks_cache s) = Done (Some a) ->
  sent_from keccak encode rec a (st_tx t) (raw_bytes (st_tx t) (st_sig t)).
Proof.
  intros Hlib pub key s H Hst Hkey b t Hin a Ha. pose proof (kreach_reach _ _ _ H) as Hr.
  destruct (signed_accepted self keccak Key rid rec Hlib key (ks_sys s) b t Hr Hst Hin) as (Hs & _). exists key. split; [exact Hs|].
  destruct (told_account _ _ _ H) as (n & Hn & Ht & Hm). specialize (Hkey n Hn). destruct Ha as [(k & Hk & ->)|Ha].
  - destruct (Ht k Hk) as [Hk' ->]. congruence.
  - destruct Hm as [Hm|(k & Hk & Hm)]; congruence.
Qed.

(** What was told stays told, and the address shown is one that was told *)
Lemma told_kept s l : exists more, ks_told (kstep s l) = ks_told s ++ more.
Proof.
  destruct l as [l| |i ans]; unfold Key.kstep.
  - exists []. rewrite app_nil_r. destruct (ks_waiting s), (is_upgrade l); reflexivity.
  - destruct (lazy_start _ _ _ _) as [[k|r]|]; [exists [k]; reflexivity| |]; exists []; rewrite app_nil_r; reflexivity.
  - destruct (nth_error _ _) as [w0|]; [|exists []; rewrite app_nil_r; reflexivity].
    destruct (lazy_resume _ _ _) as [[c k]|]; [exists [k]; reflexivity|exists []; rewrite app_nil_r; reflexivity].
Qed.
Lemma cache_told env menv s b : kreach env menv s -> ks_cache s = Some b -> exists k, In k (ks_told s) /\ decode b = Some k.
Proof.
  intros H. revert b. induction H as [now a s H|s l H IH He|s H IH|s i ans H IH Hm]; intros b Hb.
  - discriminate Hb.
  - unfold Key.kstep in *. destruct (ks_waiting s), (is_upgrade l); cbn [ks_cache ks_told] in *; auto;
      (destruct (upgraded (ks_sys s) l); [discriminate Hb|auto]).
  - unfold Key.kstep in *. destruct (lazy_start _ _ _ _) as [[k|r]|]; cbn [ks_cache ks_told] in *; auto.
    destruct (IH b Hb) as (k' & Hk & E). exists k'. split; [apply in_or_app; auto|exact E].
  - unfold Key.kstep in *. destruct (nth_error _ _) as [w0|]; [|auto]. destruct (lazy_resume _ _ _) as [[c k]|] eqn:E; cbn [ks_cache ks_told] in *; auto.
    apply resume_inv in E as (b' & _ & -> & E). injection Hb as <-. exists k. split; [apply in_or_app; right; left; reflexivity|exact E].
Qed.
Lemma shown_told env menv s a : kreach env menv s -> minter_address keccak Key decode encode (ks_cache s) = Done (Some a) ->
  exists k, In k (ks_told s) /\ a = ecdsa_public_key_to_address keccak Key encode k.
Proof.
  intros H Ha. unfold minter_address, to_public_key in Ha. destruct (ks_cache s) as [b|] eqn:Eb; [|discriminate Ha].
  destruct (cache_told _ _ _ _ H Eb) as (k & Hk & E). rewrite E in Ha. cbn [rbind] in Ha. injection Ha as <-. eauto.
Qed.
Lemma told_same env pub s k k' : kreach env (keeps_keys pub) s -> In k (ks_told s) -> In k' (ks_told s) -> k = k'.
Proof. intros H Hk Hk'. destruct (one_key_reach _ _ _ H) as (n & _ & _ & _ & I4). apply I4 in Hk, Hk'. congruence. Qed.

(** A history in which nobody has asked for the key yet *)
Lemma reach_kreach env menv s : reach self keccak env s ->
  kreach env menv {| ks_sys := s; ks_cache := None; ks_waiting := []; ks_told := [] |}.
Proof.
  induction 1 as [now a s H|s l H IH He].
  - exact (kreach_init _ _ _ _ _ _ now a s H).
  - pose proof (kreach_move _ _ _ _ _ _ _ l IH He) as K. unfold Key.kstep in K. cbn [ks_sys ks_cache ks_waiting ks_told] in K.
    destruct (is_upgrade l), (upgraded s l); exact K.
Qed.
End Key.
