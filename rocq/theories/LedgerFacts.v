(** * Proofs of C76 to C78 *)

From Verif Require Import Base BMap MultiKeyMap Bytes Types Amount Tx CallData Network Hex
  Transactions State Audit Ranges Rlp Parser Memo Driver Sys SysSpec SysFacts GuardSpec GuardFacts WithdrawSpec BalanceSpec
  BalanceFacts Ledger LedgerSpec SolvencyFacts TokenSpec BurnSpec FeeSpec CallSpec.

Lemma holder_eqb_eq a b : holder_eqb a b = true <-> a = b.
Proof.
  destruct a, b. unfold holder_eqb. cbn. rewrite andb_true_iff, !bytes_eqb_eq. split; [intros [-> ->]; auto|].
  intros H. injection H as -> ->. auto.
Qed.
Lemma holder_eqb_spec a b : reflect (a = b) (holder_eqb a b).
Proof. apply iff_reflect. symmetry. apply holder_eqb_eq. Qed.
Lemma holder_eqb_refl a : holder_eqb a a = true.
Proof. apply holder_eqb_eq. auto. Qed.

(** ** No set of accounts holds more than [n] *)
Definition bounded (f : Holder -> N) (n : N) : Prop := forall hs, NoDup hs -> sum_of f hs <= n.

Lemma sum_change f g h hs : NoDup hs -> (forall x, x <> h -> g x = f x) ->
  sum_of g hs + (if in_dec (fun a b => reflect_dec _ _ (holder_eqb_spec a b)) h hs then f h else 0) =
  sum_of f hs + (if in_dec (fun a b => reflect_dec _ _ (holder_eqb_spec a b)) h hs then g h else 0).
Proof.
  intros Hn H. induction hs as [|x hs IH]; [reflexivity|]. inversion Hn as [|? ? Hx Hn']; subst. specialize (IH Hn').
  assert (Ec : forall k, sum_of k (x :: hs) = k x + sum_of k hs) by reflexivity. rewrite !Ec.
  destruct (holder_eqb_spec x h) as [->|Hne].
  - destruct (in_dec _ h hs) as [Hi|_]; [contradiction|]. destruct (in_dec _ h (h :: hs)) as [_|Ho]; [lia|].
    exfalso. apply Ho. left. auto.
  - rewrite (H x Hne). destruct (in_dec _ h hs) as [Hi|Hi]; destruct (in_dec _ h (x :: hs)) as [Hj|Hj]; try lia.
    + exfalso. apply Hj. right. auto.
    + destruct Hj as [Hj|Hj]; [congruence|contradiction].
Qed.

Lemma bounded_credit h n l b : bounded (lg_balance l) b -> bounded (lg_balance (credit h n l)) (b + n).
Proof.
  intros Hb hs Hn. pose proof (sum_change (lg_balance l) (lg_balance (credit h n l)) h hs Hn) as S.
  specialize (Hb hs Hn). cbn [credit lg_balance] in *. rewrite holder_eqb_refl in S.
  assert (H : forall x, x <> h -> (if holder_eqb x h then lg_balance l x + n else lg_balance l x) = lg_balance l x).
  { intros x Hx. destruct (holder_eqb_spec x h); [contradiction|auto]. }
  specialize (S H). destruct (in_dec _ h hs); lia.
Qed.
Lemma bounded_debit h n l l' b : bounded (lg_balance l) b -> debit h n l = Some l' ->
  n <= lg_balance l h /\ n <= b /\ bounded (lg_balance l') (b - n).
Proof.
  unfold debit. destruct (N.ltb_spec (lg_balance l h) n) as [|Hle]; [discriminate|]. intros Hb E. injection E as <-.
  assert (Hh : lg_balance l h <= b).
  { specialize (Hb [h] ltac:(repeat constructor; intros [])). unfold sum_of, sum in Hb. cbn in Hb. lia. }
  split; [exact Hle|]. split; [lia|]. intros hs Hn. cbn [lg_balance].
  set (g := fun x => if holder_eqb x h then lg_balance l x - n else lg_balance l x).
  assert (H : forall x, x <> h -> g x = lg_balance l x).
  { intros x Hx. unfold g. destruct (holder_eqb_spec x h); [contradiction|auto]. }
  pose proof (sum_change (lg_balance l) g h hs Hn H) as S. unfold g in S at 2. rewrite holder_eqb_refl in S.
  destruct (in_dec _ h hs) as [Hi|Hi].
  - specialize (Hb hs Hn). lia.
  - specialize (Hb (h :: hs) ltac:(constructor; auto)). change (sum_of (lg_balance l) (h :: hs)) with (lg_balance l h + sum_of (lg_balance l) hs) in Hb. lia.
Qed.

(** ** What the calls do *)
Section Rules.
Variable minting : Holder.

(** A movement: what it adds to all accounts together and what it takes from them *)
Lemma move_bounded from to n l l' b : bounded (lg_balance l) b -> move minting from to n l = Some l' ->
  if holder_eqb to minting then n <= b /\ bounded (lg_balance l') (b - n)
  else if holder_eqb from minting then bounded (lg_balance l') (b + n)
  else bounded (lg_balance l') b.
Proof.
  unfold move. intros Hb. destruct (holder_eqb to minting).
  - destruct (holder_eqb from minting); [discriminate|]. intros E. exact (proj2 (bounded_debit _ _ _ _ _ Hb E)).
  - destruct (holder_eqb from minting).
    + intros E. injection E as <-. apply bounded_credit. exact Hb.
    + destruct (debit from (n + lg_fee l) l) as [l1|] eqn:E; [|discriminate]. intros E'. injection E' as <-.
      destruct (bounded_debit _ _ _ _ _ Hb E) as (_ & H1 & H2). apply (bounded_credit to n) in H2.
      intros hs Hn. specialize (H2 hs Hn). lia.
Qed.
Lemma move_rest from to n l l' : move minting from to n l = Some l' ->
  lg_allowance l' = lg_allowance l /\ lg_next l' = lg_next l /\ lg_fee l' = lg_fee l.
Proof.
  unfold move, debit. intros H.
  repeat match type of H with context [if ?b then _ else _] => destruct b end; try discriminate;
    injection H as <-; auto.
Qed.

Lemma transfer_inv from to n l l' : transfer minting from to n l = Some l' ->
  exists l1, move minting from to n l = Some l1 /\ l' = next_block l1.
Proof. unfold transfer. destruct (move minting from to n l) as [l1|]; [|discriminate]. intros H. injection H as <-. eauto. Qed.
Lemma transfer_from_inv spender from to n l l' : transfer_from minting spender from to n l = Some l' ->
  exists l1, move minting from to n l = Some l1 /\
    ((spender = from /\ l' = next_block l1) \/
     (spender <> from /\ from <> minting /\ n + move_fee minting from to l <= lg_allowance l from spender /\
      l' = next_block (allow from spender (lg_allowance l from spender - (n + move_fee minting from to l)) l1))).
Proof.
  unfold transfer_from. destruct (holder_eqb_spec spender from) as [->|Hne].
  - intros H. apply transfer_inv in H as (l1 & H1 & H2). eauto.
  - destruct (holder_eqb_spec from minting) as [|Hm]; [discriminate|]. cbn zeta.
    destruct (N.ltb_spec (lg_allowance l from spender) (n + move_fee minting from to l)); [discriminate|].
    destruct (move minting from to n l) as [l1|]; [|discriminate]. intros H'. injection H' as <-. exists l1. split; auto. 
Qed.
End Rules.

Section Together.
Variable self : Principal.
Variable keccak : list N -> Hash.
Variable env : Sys -> Label -> Prop.
Let minter : Holder := holder (default_account self).

Lemma fees_not_minter : holder (fees_account self) <> minter.
Proof. intros H. injection H. discriminate. Qed.

(** ** The minter's side *)
Definition env' (s : Sys) (l : Label) : Prop := env s l /\ by_others self l.
Lemma together_reach s ls : together self keccak env s ls -> reach self keccak env' s.
Proof.
  induction 1 as [now a s ls H|s ls l _ IH He Hb|s ls id c b ls' _ IH He|]; auto.
  - exact (reach_init _ _ _ now a s H).
  - apply reach_step; [exact IH|]. split; auto.
  - apply reach_step; [exact IH|]. split; [exact He|exact Logic.I].
Qed.
Lemma calls_by_others s : reach self keccak env' s -> forall id u, In (id, u) (sys_calls s) -> withdrawing u <> Some self.
Proof.
  revert s. apply (reach_inv self keccak env' (fun s => forall id u, In (id, u) (sys_calls s) -> withdrawing u <> Some self)).
  - intros now a s H. apply sys_init_inv in H as (st & _ & _ & _ & _ & _ & _ & -> & _). intros id u [].
  - intros s l s' Hi (_ & He) H. destruct H as [|k now c nx Hc H|u now c nx Hc H|k now Hc|u now Hc|id t c b Hget Hcall Hallow|id t r Hget Hfit Hno|id now t r c nx Hc Hget H|id trap now t r c Hc Hget Hp H|a now c Hc Ht H]; auto.
    + destruct nx; exact Hi.
    + intros id v Hin. assert (Hin' : In (id, v) (sys_calls s ++ [(sys_next s, u)])) by (destruct nx; exact Hin).
      apply in_app_or in Hin' as [Hin'|[Hin'|[]]]; [exact (Hi _ _ Hin')|]. injection Hin' as <- <-. exact He.
    + intros id v Hin. assert (Hin' : In (id, v) (sys_calls s ++ [(sys_next s, u)])) by exact Hin.
      apply in_app_or in Hin' as [Hin'|[Hin'|[]]]; [exact (Hi _ _ Hin')|]. injection Hin' as <- <-. exact He.
    + destruct nx; exact Hi.
Qed.

(** The calls that suspended functions make *)
Definition call_good (s : Sys) (id : N) (c : LedgerCall) : Prop :=
  match c with
  | Transfer _ _ _ _ => True
  | TransferFrom _ from to _ _ =>
      (exists u p, In (id, u) (sys_calls s) /\ withdrawing u = Some p /\ p <> self /\ from = default_account p /\
         (to = fees_account self \/ to = default_account self)) \/
      (from = fees_account self /\ exists p, p <> self /\ to = default_account p)
  end.
Lemma call_is_good s id t r c : reach self keccak env' s -> bget id (sys_tasks s) = Some {| fl_task := t; fl_reply := r |} ->
  task_call self t = Some c -> call_good s id c.
Proof.
  intros Hr Hg Hc. pose proof (calls_reach self keccak env' s Hr) as HC.
  assert (Hp : forall p, task_principal t = Some p -> exists u, In (id, u) (sys_calls s) /\ withdrawing u = Some p /\ p <> self).
  { intros p Hp. destruct (co_flight _ HC id _ p Hg Hp) as (u & Hu & Hw). exists u. split; auto. split; auto.
    intros ->. exact (calls_by_others s Hr id u Hu Hw). }
  destruct t; try discriminate; cbn in Hc; injection Hc as <-; cbn [call_good]; try exact Logic.I;
    destruct (Hp _ eq_refl) as (u & H1 & H2 & H3); [left|left|right|left|left|left|right];
    try (exists u; eexists; split; [exact H1|]; split; [exact H2|]; split; [exact H3|]; split; [reflexivity|]; auto);
    (split; [reflexivity|]; eauto).
Qed.

(** ** Both sides *)
Record agree (s : Sys) (ls : Ledgers) : Prop := {
  ag_supply : forall p hs, NoDup hs ->
    held_by hs (ls p) + burned_total self p (sys_ops s) <= minted_total p (sys_ops s);
  ag_next : forall c b, In (c, b) (sys_ops s) -> b < lg_next (ls (call_ledger c));
  ag_own : forall p o x, fst o = self -> lg_allowance (ls p) o x = 0
}.

Lemma is_burn_holder s id c : call_good s id c ->
  match c with Transfer _ _ _ _ => True | TransferFrom _ _ to _ _ => is_burn self c = holder_eqb (holder to) minter end.
Proof.
  destruct c as [|l from to n m]; [auto|]. cbn [call_good is_burn].
  assert (H : forall p, account_eqb (default_account p) (default_account self) = holder_eqb (holder (default_account p)) minter).
  { intros p. unfold account_eqb, holder_eqb, minter, holder. cbn [ac_owner ac_subaccount default_account fst snd].
    rewrite bytes_eqb_refl. reflexivity. }
  assert (Hf : account_eqb (fees_account self) (default_account self) = holder_eqb (holder (fees_account self)) minter).
  { destruct (holder_eqb_spec (holder (fees_account self)) minter) as [E|_]; [destruct (fees_not_minter E)|].
    unfold account_eqb. cbn. apply andb_false_r. }
  intros [(u & p & _ & _ & _ & _ & [->| ->])|(_ & p & _ & ->)]; auto.
Qed.

Lemma good_from_minter s id l from to n m : call_good s id (TransferFrom l from to n m) -> holder from <> minter.
Proof.
  intros [(u & p & _ & _ & Hp & -> & _)|(-> & _)]; [|exact fees_not_minter]. intros E. injection E as E. contradiction.
Qed.

(** What a call that is executed does to the balances *)
Lemma execute_bounded s id c l b l' n : call_good s id c -> bounded (lg_balance l) n -> execute self c l = Some (b, l') ->
  b = lg_next l /\ lg_next l' = lg_next l + 1 /\
  (if is_burn self c then call_amount c <= n /\ bounded (lg_balance l') (n - call_amount c)
   else if is_mint c then bounded (lg_balance l') (n + call_amount c)
   else bounded (lg_balance l') n).
Proof.
  intros Hg Hb. pose proof (is_burn_holder s id c Hg) as Hi. unfold execute. fold minter.
  destruct c as [lg to a m|lg from to a m].
  - destruct (transfer minter minter (holder to) a l) as [l1|] eqn:E; [|discriminate]. intros H. injection H as <- <-.
    apply transfer_inv in E as (l2 & E & ->). destruct (move_rest _ _ _ _ _ _ E) as (_ & En & _). cbn [is_burn is_mint call_amount].
    split; auto. split; [cbn; congruence|]. pose proof (move_bounded _ _ _ _ _ _ _ Hb E) as M.
    unfold move in E. rewrite holder_eqb_refl in *. destruct (holder_eqb (holder to) minter); [discriminate|]. exact M.
  - destruct (transfer_from minter minter (holder from) (holder to) a l) as [l1|] eqn:E; [|discriminate]. intros H. injection H as <- <-.
    apply transfer_from_inv in E as (l2 & E & Hl). destruct (move_rest _ _ _ _ _ _ E) as (_ & En & _).
    pose proof (move_bounded _ _ _ _ _ _ _ Hb E) as M. pose proof (good_from_minter _ _ _ _ _ _ _ Hg) as Hf.
    rewrite Hi. destruct (holder_eqb_spec (holder from) minter) as [|_]; [contradiction|]. cbn [is_mint call_amount].
    assert (Eb : lg_balance l1 = lg_balance l2) by (destruct Hl as [(_ & ->)|(_ & _ & _ & ->)]; reflexivity).
    assert (Ex : lg_next l1 = lg_next l2 + 1) by (destruct Hl as [(_ & ->)|(_ & _ & _ & ->)]; reflexivity).
    split; auto. split; [congruence|]. rewrite Eb. exact M.
Qed.
Lemma perform_bounded d l l' n : doer d <> Some self -> bounded (lg_balance l) n -> perform self d l = Some l' ->
  bounded (lg_balance l') n /\ lg_next l <= lg_next l'.
Proof.
  intros Hd Hb. unfold perform. fold minter.
  assert (Hm : forall from to a l2, fst from <> self -> move minter from to a l = Some l2 -> bounded (lg_balance l2) n).
  { intros from to a l2 Hf E. pose proof (move_bounded _ _ _ _ _ _ _ Hb E) as M.
    destruct (holder_eqb_spec from minter) as [->|_]; [exfalso; apply Hf; reflexivity|].
    destruct (holder_eqb to minter); [|exact M]. destruct M as (_ & M). intros hs Hn. specialize (M hs Hn). lia. }
  destruct d as [from to a|sp from to a|ow sp a|ow sp|a]; cbn [doer] in Hd.
  - intros E. apply transfer_inv in E as (l2 & E & ->). destruct (move_rest _ _ _ _ _ _ E) as (_ & En & _).
    split; [exact (Hm from to a l2 ltac:(congruence) E)|cbn; lia].
  - intros E. apply transfer_from_inv in E as (l2 & E & Hl). destruct (move_rest _ _ _ _ _ _ E) as (_ & En & _).
    assert (Hf : from <> minter) by (destruct Hl as [(-> & _)|(_ & Hf & _)]; [intros ->; apply Hd; reflexivity|exact Hf]).
    assert (M : bounded (lg_balance l2) n).
    { pose proof (move_bounded _ _ _ _ _ _ _ Hb E) as M. destruct (holder_eqb_spec from minter) as [|_]; [contradiction|].
      destruct (holder_eqb to minter); [|exact M]. destruct M as (_ & M). intros hs Hn. specialize (M hs Hn). lia. }
    destruct Hl as [(_ & ->)|(_ & _ & _ & ->)]; (split; [exact M|cbn; lia]).
  - unfold approve. destruct (_ || _); [discriminate|]. destruct (debit ow (lg_fee l) l) as [l2|] eqn:E; [|discriminate].
    intros H. injection H as <-. destruct (bounded_debit _ _ _ _ _ Hb E) as (_ & _ & M).
    split; [|unfold debit in E; destruct (_ <? _); [discriminate|injection E as <-; cbn; lia]].
    cbn. intros hs Hn. specialize (M hs Hn). lia.
  - intros H. injection H as <-. split; [exact Hb|cbn; lia].
  - intros H. injection H as <-. split; [exact Hb|cbn; lia].
Qed.

Lemma debit_rest h n l l' : debit h n l = Some l' -> lg_allowance l' = lg_allowance l.
Proof. unfold debit. destruct (_ <? _); [discriminate|]. intros H. injection H as <-. reflexivity. Qed.
Lemma transfer_from_own sp from to a l l' : (forall o x, fst o = self -> lg_allowance l o x = 0) ->
  transfer_from minter sp from to a l = Some l' -> forall o x, fst o = self -> lg_allowance l' o x = 0.
Proof.
  intros Ho E. apply transfer_from_inv in E as (l2 & E & Hl). destruct (move_rest _ _ _ _ _ _ E) as (Ea & _).
  destruct Hl as [(_ & ->)|(_ & _ & _ & ->)]; cbn; intros o x Hf.
  - rewrite Ea. auto.
  - destruct (holder_eqb_spec o from) as [->|_]; cbn; [|rewrite Ea; auto].
    destruct (holder_eqb_spec x sp) as [->|_]; cbn; [rewrite (Ho _ _ Hf); lia|rewrite Ea; auto].
Qed.
Lemma execute_own c l b l' : (forall o x, fst o = self -> lg_allowance l o x = 0) -> execute self c l = Some (b, l') ->
  forall o x, fst o = self -> lg_allowance l' o x = 0.
Proof.
  intros Ho. unfold execute. fold minter. destruct c as [lg to a m|lg from to a m].
  - destruct (transfer minter minter (holder to) a l) as [l1|] eqn:E; [|discriminate]. intros H. injection H as <- <-.
    apply transfer_inv in E as (l2 & E & ->). destruct (move_rest _ _ _ _ _ _ E) as (Ea & _). cbn. rewrite Ea. exact Ho.
  - destruct (transfer_from minter minter (holder from) (holder to) a l) as [l1|] eqn:E; [|discriminate]. intros H. injection H as <- <-.
    exact (transfer_from_own _ _ _ _ _ _ Ho E).
Qed.
Lemma perform_own d l l' : (forall o x, fst o = self -> lg_allowance l o x = 0) -> doer d <> Some self -> perform self d l = Some l' ->
  forall o x, fst o = self -> lg_allowance l' o x = 0.
Proof.
  intros Ho Hd. unfold perform. fold minter. destruct d as [from to a|sp from to a|ow sp a|ow sp|a]; cbn [doer] in Hd.
  - intros E. apply transfer_inv in E as (l2 & E & ->). destruct (move_rest _ _ _ _ _ _ E) as (Ea & _). cbn. rewrite Ea. exact Ho.
  - intros E. exact (transfer_from_own _ _ _ _ _ _ Ho E).
  - unfold approve. destruct (_ || _); [discriminate|]. destruct (debit ow (lg_fee l) l) as [l2|] eqn:E; [|discriminate].
    intros H. injection H as <-. apply debit_rest in E. cbn. intros o x Hf. rewrite E.
    destruct (holder_eqb_spec o ow) as [->|_]; [congruence|]. cbn. auto.
  - intros H. injection H as <-. cbn. intros o x Hf. destruct (_ && _); auto.
  - intros H. injection H as <-. exact Ho.
Qed.

Lemma set_same p l ls : set_ledger p l ls p = l.
Proof. unfold set_ledger. rewrite bytes_eqb_refl. reflexivity. Qed.
Lemma set_other p q l ls : q <> p -> set_ledger p l ls q = ls q.
Proof. unfold set_ledger. intros H. destruct (bytes_eqb q p) eqn:E; [apply bytes_eqb_eq in E; contradiction|reflexivity]. Qed.

Lemma agree_bounded s ls p : agree s ls ->
  burned_total self p (sys_ops s) <= minted_total p (sys_ops s) /\
  bounded (lg_balance (ls p)) (minted_total p (sys_ops s) - burned_total self p (sys_ops s)).
Proof.
  intros [H _ _]. split.
  - specialize (H p [] ltac:(constructor)). unfold held_by, sum_of, sum in H. cbn in H. lia.
  - intros hs Hn. specialize (H p hs Hn). unfold held_by in H. lia.
Qed.

(** A ledger that executes a call keeps the rules of the model. *)
Lemma rules_kept s ls id t r c b l : agree s ls -> reach self keccak env' s ->
  bget id (sys_tasks s) = Some {| fl_task := t; fl_reply := r |} -> task_call self t = Some c ->
  execute self c (ls (call_ledger c)) = Some (b, l) -> ledger_allows self (sys_ops s) c b = true.
Proof.
  intros Ha Hr Hg Hc Hx. pose proof (call_is_good s id t r c Hr Hg Hc) as Hgood.
  destruct (agree_bounded s ls (call_ledger c) Ha) as (Hle & Hb).
  destruct (execute_bounded s id c _ b l _ Hgood Hb Hx) as (-> & _ & M).
  unfold ledger_allows. apply andb_true_intro. split.
  - apply negb_true_iff. destruct (existsb _ _) eqn:E; [|reflexivity]. apply existsb_exists in E as ((c' & b') & Hin & E).
    apply andb_prop in E as [E1 E2]. apply bytes_eqb_eq in E1. apply N.eqb_eq in E2. cbn in E1, E2. subst b'.
    apply (ag_next _ _ Ha) in Hin. rewrite E1 in Hin. lia.
  - destruct (is_burn self c); [|reflexivity]. apply N.leb_le. lia.
Qed.
Lemma op_step s id t c b : bget id (sys_tasks s) = Some {| fl_task := t; fl_reply := None |} -> task_call self t = Some c ->
  ledger_allows self (sys_ops s) c b = true ->
  sys_ops (step self keccak s (LAnswer id (ReLedger (LedgerOk b)))) = sys_ops s ++ [(c, b)].
Proof.
  intros Hg Hc Ha. cbn [step]. rewrite Hg. cbn [reply_fits]. rewrite Hc. cbn [is_some]. rewrite Ha. reflexivity.
Qed.
Lemma quiet_ops s l : (forall id b, l <> LAnswer id (ReLedger (LedgerOk b))) -> sys_ops (step self keccak s l) = sys_ops s.
Proof.
  intros Hl. pose proof (step_trans self keccak s l) as H.
  remember (step self keccak s l) as s' eqn:Es. clear Es.
  destruct H as [|k now c nx Hc H|u now c nx Hc H|k now Hc|u now Hc|id t c b Hget Hcall Hallow|id t r Hget Hfit Hno|id now t r c nx Hc Hget H|id trap now t r c Hc Hget Hp H|a now c Hc Ht H];
    try reflexivity; try (destruct nx; reflexivity). destruct (Hl id b eq_refl).
Qed.

Lemma together_agree s ls : together self keccak env s ls -> agree s ls.
Proof.
  induction 1 as [now a s ls H Hu|s ls l Ht IH He Hb Hl|s ls id c b ls' Ht IH He (t & l & Hg & Hc & Hx & ->)|s ls p d l Ht IH Hd Hp].
  - apply sys_init_inv in H as (st & _ & _ & _ & _ & _ & Eo & _). constructor.
    + intros p hs Hn. rewrite Eo. cbn. unfold held_by. destruct (Hu p) as (H0 & _).
      assert (E : sum_of (lg_balance (ls p)) hs = 0).
      { clear Hn. induction hs as [|x hs IHhs]; [reflexivity|].
        change (sum_of (lg_balance (ls p)) (x :: hs)) with (lg_balance (ls p) x + sum_of (lg_balance (ls p)) hs). rewrite H0, IHhs. reflexivity. }
      rewrite E. unfold minted_total, burned_total. cbn. lia.
    + rewrite Eo. intros c b [].
    + intros p o x _. destruct (Hu p) as (_ & H1). apply H1.
  - destruct IH as [I1 I2 I3]. constructor; rewrite ?(quiet_ops s l Hl); auto.
  - pose proof (together_reach s ls Ht) as Hr. pose proof (call_is_good s id t None c Hr Hg Hc) as Hgood.
    pose proof (rules_kept s ls id t None c b l IH Hr Hg Hc Hx) as Hal.
    destruct (agree_bounded s ls (call_ledger c) IH) as (Hle & Hbd).
    destruct (execute_bounded s id c _ b l _ Hgood Hbd Hx) as (-> & En & M). pose proof IH as [I1 I2 I3].
    constructor; rewrite ?(op_step s id t c _ Hg Hc Hal).
    + intros p hs Hn. unfold burned_total, minted_total. rewrite !(total_snoc keccak). cbn [fst].
      fold (minted_total p (sys_ops s)). fold (burned_total self p (sys_ops s)).
      destruct (bytes_eqb (call_ledger c) p) eqn:Ep.
      * apply bytes_eqb_eq in Ep as <-. rewrite !andb_true_r, set_same. unfold held_by.
        destruct (is_burn self c) eqn:Eb.
        -- assert (is_mint c = false) as -> by (destruct c; [discriminate|reflexivity]).
           destruct M as (M1 & M2). specialize (M2 hs Hn). lia.
        -- destruct (is_mint c); specialize (M hs Hn); lia.
      * rewrite !andb_false_r, set_other by (intros ->; rewrite bytes_eqb_refl in Ep; discriminate).
        specialize (I1 p hs Hn). lia.
    + intros c' b' Hin. apply in_app_or in Hin as [Hin|[Hin|[]]].
      * apply I2 in Hin. destruct (bytes_eqb (call_ledger c') (call_ledger c)) eqn:Ep.
        -- apply bytes_eqb_eq in Ep. rewrite Ep in *. rewrite set_same. lia.
        -- rewrite set_other by (intros E; rewrite E, bytes_eqb_refl in Ep; discriminate). exact Hin.
      * injection Hin as <- <-. rewrite set_same. lia.
    + intros p o x Hf. destruct (bytes_eqb p (call_ledger c)) eqn:Ep.
      * apply bytes_eqb_eq in Ep as ->. rewrite set_same. exact (execute_own c _ _ _ (I3 _) Hx o x Hf).
      * rewrite set_other by (intros ->; rewrite bytes_eqb_refl in Ep; discriminate). exact (I3 p o x Hf).
  - destruct (agree_bounded s ls p IH) as (Hle & Hbd). destruct (perform_bounded d _ l _ Hd Hbd Hp) as (M & En).
    pose proof IH as [I1 I2 I3]. constructor.
    + intros q hs Hn. destruct (bytes_eqb q p) eqn:Ep.
      * apply bytes_eqb_eq in Ep as ->. rewrite set_same. specialize (M hs Hn). unfold held_by. lia.
      * rewrite set_other by (intros ->; rewrite bytes_eqb_refl in Ep; discriminate). exact (I1 q hs Hn).
    + intros c' b' Hin. apply I2 in Hin. destruct (bytes_eqb (call_ledger c') p) eqn:Ep.
      * apply bytes_eqb_eq in Ep. rewrite Ep in *. rewrite set_same. lia.
      * rewrite set_other by (intros E; rewrite E, bytes_eqb_refl in Ep; discriminate). exact Hin.
    + intros q o x Hf. destruct (bytes_eqb q p) eqn:Ep.
      * apply bytes_eqb_eq in Ep as ->. rewrite set_same. exact (perform_own d _ _ (I3 _) Hd Hp o x Hf).
      * rewrite set_other by (intros ->; rewrite bytes_eqb_refl in Ep; discriminate). exact (I3 q o x Hf).
Qed.

Lemma in_call_open s id u t r : reach self keccak env' s -> bget id (sys_tasks s) = Some {| fl_task := t; fl_reply := r |} ->
  In (id, u) (sys_calls s) -> forall o, ~ In (id, o) (sys_outcomes s).
Proof.
  intros Hr Hg _ o Ho. pose proof (calls_reach self keccak env' s Hr) as HC. pose proof (co_out_done _ HC id o Ho) as H. cbn in H. congruence.
Qed.

Lemma move_balance minting from to n l l' h : move minting from to n l = Some l' -> h <> to -> h <> from -> lg_balance l' h = lg_balance l h.
Proof.
  unfold move, debit, credit. intros H Ht Hf.
  repeat match type of H with context [if ?b then _ else _] => destruct b end; try discriminate; injection H as <-; cbn;
    repeat match goal with |- context [holder_eqb h ?x] => destruct (holder_eqb_spec h x); try contradiction end; reflexivity.
Qed.
(** What a movement takes from the account it is made from *)
Lemma move_takes minting from to n l l' : move minting from to n l = Some l' -> from <> minting -> from <> to ->
  lg_balance l' from + (n + move_fee minting from to l) = lg_balance l from.
Proof.
  unfold move, debit, credit, move_fee. intros H Hf Ht. destruct (holder_eqb_spec from minting) as [|_]; [contradiction|].
  destruct (holder_eqb to minting).
  - destruct (N.ltb_spec (lg_balance l from) n); [discriminate|]. injection H as <-. cbn. rewrite holder_eqb_refl. lia.
  - destruct (N.ltb_spec (lg_balance l from) (n + lg_fee l)); [discriminate|]. injection H as <-. cbn.
    destruct (holder_eqb_spec from to); [contradiction|]. rewrite holder_eqb_refl. lia.
Qed.
Lemma move_gives minting from to n l l' h : move minting from to n l = Some l' -> h <> from -> lg_balance l h <= lg_balance l' h.
Proof.
  unfold move, debit, credit. intros H Hf.
  repeat match type of H with context [if ?b then _ else _] => destruct b end; try discriminate; injection H as <-; cbn;
    repeat match goal with |- context [holder_eqb h ?x] => destruct (holder_eqb_spec h x); try contradiction end; lia.
Qed.

(** ** Nothing is refunded from the fee account *)
Lemma fees_stay ls : (forall p o x, fst o = self -> lg_allowance (ls p) o x = 0) -> forall lg to n m b l,
  execute self (TransferFrom lg (fees_account self) to n m) (ls lg) = Some (b, l) -> n = 0 /\
    move_fee minter (holder (fees_account self)) (holder to) (ls lg) = 0.
Proof.
  intros Ho lg to n m b l. unfold execute. fold minter.
  destruct (transfer_from minter minter (holder (fees_account self)) (holder to) n (ls lg)) as [l1|] eqn:E; [|discriminate].
  intros _. apply transfer_from_inv in E as (l2 & E & [(E1 & _)|(_ & _ & H & _)]); [destruct (fees_not_minter (eq_sym E1))|].
  rewrite Ho in H by reflexivity. lia.
Qed.
Lemma ops_by_ledger (P : LedgerCall -> Prop) : (forall s ls id c b ls', agree s ls -> reach self keccak env' s -> executes self s ls id c b ls' -> P c) ->
  forall s ls, together self keccak env s ls -> forall c b, In (c, b) (sys_ops s) -> P c.
Proof.
  intros HP s ls H. induction H as [now a s ls H Hu|s ls l Ht IH He Hb Hl|s ls id c b ls' Ht IH He Hx|s ls p d l Ht IH Hd Hp]; auto.
  - apply sys_init_inv in H as (st & _ & _ & _ & _ & _ & Eo & _). rewrite Eo. intros c b [].
  - rewrite (quiet_ops s l Hl). exact IH.
  - pose proof (together_agree s ls Ht) as Ha. pose proof (together_reach s ls Ht) as Hr.
    pose proof (HP _ _ _ _ _ _ Ha Hr Hx) as Hc. destruct Hx as (t & l & Hg & Htc & Hx & ->).
    rewrite (op_step s id t c b Hg Htc (rules_kept s ls id t None c b l Ha Hr Hg Htc Hx)).
    intros c' b' Hin. apply in_app_or in Hin as [Hin|[Hin|[]]]; [exact (IH _ _ Hin)|]. injection Hin as <- <-. exact Hc.
Qed.
Lemma never_refunded s ls lg to n m b : together self keccak env s ls ->
  In (TransferFrom lg (fees_account self) to n m, b) (sys_ops s) -> n = 0.
Proof.
  intros H Hin. pose (P := fun c => match c with TransferFrom _ from _ k _ => from = fees_account self -> k = 0 | _ => True end).
  enough (HP : P (TransferFrom lg (fees_account self) to n m)) by exact (HP eq_refl).
  apply (ops_by_ledger P) with (s := s) (ls := ls) (b := b); auto.
  intros s0 ls0 id c b0 ls1 Ha _ (t & l & _ & _ & Hx & _). destruct c as [|lg0 from to0 k m0]; cbn; auto. intros ->.
  exact (proj1 (fees_stay ls0 (ag_own _ _ Ha) _ _ _ _ _ _ Hx)).
Qed.

(** ** Who pays *)
Lemma taken_from_owner s ls id c b ls' p h : together self keccak env s ls -> executes self s ls id c b ls' ->
  lg_balance (ls' p) h < lg_balance (ls p) h ->
  exists u q, In (id, u) (sys_calls s) /\ (forall o, ~ In (id, o) (sys_outcomes s)) /\ withdrawing u = Some q /\ h = holder (default_account q) /\
    let taken := op_cost self (lg_fee (ls p)) p h (c, b) in
    lg_balance (ls' p) h + taken = lg_balance (ls p) h /\ lg_allowance (ls' p) h minter + taken = lg_allowance (ls p) h minter.
Proof.
  intros Ht (t & l & Hg & Hc & Hx & ->) Hlt. pose proof (together_agree s ls Ht) as Ha. pose proof (together_reach s ls Ht) as Hr.
  pose proof (call_is_good s id t None c Hr Hg Hc) as Hgood.
  destruct (bytes_eqb p (call_ledger c)) eqn:Ep; [apply bytes_eqb_eq in Ep as ->|
    rewrite set_other in Hlt by (intros ->; rewrite bytes_eqb_refl in Ep; discriminate); lia].
  rewrite set_same in *. destruct c as [lg to n m|lg from to n m]; cbn [call_ledger] in *.
  - exfalso. unfold execute in Hx. fold minter in Hx. destruct (transfer minter minter (holder to) n (ls lg)) as [l1|] eqn:E; [|discriminate].
    injection Hx as <- <-. apply transfer_inv in E as (l2 & E & ->). cbn in Hlt. unfold move in E. rewrite holder_eqb_refl in E.
    destruct (holder_eqb (holder to) minter); [discriminate|]. injection E as <-. cbn in Hlt. destruct (holder_eqb h (holder to)); lia.
  - destruct Hgood as [(u & q & Hu & Hw & Hq & -> & Hto)|(-> & q & Hq & ->)].
    + unfold execute in Hx. fold minter in Hx.
      destruct (transfer_from minter minter (holder (default_account q)) (holder to) n (ls lg)) as [l1|] eqn:E; [|discriminate].
      injection Hx as <- <-. apply transfer_from_inv in E as (l2 & E & Hl).
      assert (Hqm : holder (default_account q) <> minter) by (intros E'; injection E' as E'; contradiction).
      destruct Hl as [(E1 & _)|(_ & _ & Hal & ->)]; [symmetry in E1; contradiction|].
      cbn [lg_balance next_block allow] in Hlt.
      assert (h = holder (default_account q)) as ->.
      { destruct (holder_eqb_spec h (holder (default_account q))) as [|Hne]; [assumption|].
        pose proof (move_gives _ _ _ _ _ _ h E Hne). lia. }
      assert (Htq : holder (default_account q) <> holder to).
      { destruct Hto as [->| ->]; [intros E'; injection E' as E'; discriminate|exact Hqm]. }
      exists u, q. split; [exact Hu|]. split; [exact (in_call_open s id u t None Hr Hg Hu)|]. split; [exact Hw|]. split; [reflexivity|].
      pose proof (move_takes _ _ _ _ _ _ E Hqm Htq) as Hm. unfold move_fee in Hm, Hal.
      destruct (holder_eqb_spec (holder (default_account q)) minter) as [|_]; [contradiction|]. rewrite orb_false_r in *.
      unfold op_cost. cbn [fst]. rewrite bytes_eqb_refl, holder_eqb_refl. cbn [andb]. unfold minting. fold minter.
      cbn [lg_balance lg_allowance next_block allow]. rewrite !holder_eqb_refl. cbn [andb]. cbn zeta. split; [exact Hm|].
      unfold move_fee. destruct (holder_eqb_spec (holder (default_account q)) minter) as [|_]; [contradiction|]. rewrite orb_false_r. lia.
    + exfalso. destruct (fees_stay ls (ag_own _ _ Ha) _ _ _ _ _ _ Hx) as (-> & Hfee).
      unfold execute in Hx. fold minter in Hx.
      destruct (transfer_from minter minter (holder (fees_account self)) (holder (default_account q)) 0 (ls lg)) as [l1|] eqn:E; [|discriminate].
      injection Hx as <- <-. apply transfer_from_inv in E as (l2 & E & Hl).
      destruct Hl as [(E1 & _)|(_ & _ & Hal & ->)]; [destruct (fees_not_minter (eq_sym E1))|].
      cbn [lg_balance next_block allow] in Hlt. destruct (holder_eqb_spec h (holder (fees_account self))) as [->|Hne].
      * assert (Hfq : holder (fees_account self) <> holder (default_account q)) by (intros E'; injection E' as E'; discriminate).
        pose proof (move_takes _ _ _ _ _ _ E fees_not_minter Hfq). lia.
      * pose proof (move_gives _ _ _ _ _ _ h E Hne). lia.
Qed.

(** ** What arrives *)
Lemma paid_in_full s ls id lg to n m b ls' : together self keccak env s ls -> executes self s ls id (Transfer lg to n m) b ls' ->
  holder to <> minter /\ lg_balance (ls' lg) (holder to) = lg_balance (ls lg) (holder to) + n /\
  (forall h, h <> holder to -> lg_balance (ls' lg) h = lg_balance (ls lg) h) /\ (forall q, q <> lg -> ls' q = ls q).
Proof.
  intros _ (t & l & _ & _ & Hx & ->). cbn [call_ledger] in *. unfold execute in Hx. fold minter in Hx.
  destruct (transfer minter minter (holder to) n (ls lg)) as [l1|] eqn:E; [|discriminate]. injection Hx as <- <-.
  apply transfer_inv in E as (l2 & E & ->). unfold move in E. rewrite holder_eqb_refl in E.
  destruct (holder_eqb_spec (holder to) minter) as [|Hne]; [discriminate|]. injection E as <-. split; [exact Hne|].
  rewrite set_same. cbn. rewrite holder_eqb_refl. split; [reflexivity|]. split.
  - intros h Hh. destruct (holder_eqb_spec h (holder to)); [contradiction|reflexivity].
  - intros q Hq. apply set_other. exact Hq.
Qed.
Lemma can_be_paid s ls id t lg to n m : bget id (sys_tasks s) = Some {| fl_task := t; fl_reply := None |} ->
  task_call self t = Some (Transfer lg to n m) -> holder to <> minter -> exists b ls', executes self s ls id (Transfer lg to n m) b ls'.
Proof.
  intros Hg Hc Hne. exists (lg_next (ls lg)). eexists. exists t. eexists. split; [exact Hg|]. split; [exact Hc|]. split; [|reflexivity].
  cbn [call_ledger]. unfold execute, transfer, move. fold minter. rewrite holder_eqb_refl.
  destruct (holder_eqb_spec (holder to) minter); [contradiction|]. reflexivity.
Qed.
Lemma never_to_minter s ls lg to n m b : together self keccak env s ls -> In (Transfer lg to n m, b) (sys_ops s) -> holder to <> minter.
Proof.
  intros H Hin. pose (P := fun c => match c with Transfer _ to _ _ => holder to <> minter | _ => True end).
  change (P (Transfer lg to n m)). apply (ops_by_ledger P) with (s := s) (ls := ls) (b := b); auto.
  intros s0 ls0 id c b0 ls1 _ _ (t & l & _ & _ & Hx & _). destruct c as [lg0 to0 k m0|]; cbn; auto.
  unfold execute, transfer, move in Hx. fold minter in Hx. rewrite holder_eqb_refl in Hx. intros E. rewrite E, holder_eqb_refl in Hx. discriminate.
Qed.
End Together.

(** ** What a withdrawal costs *)
Section Cost.
Variable self : Principal.
Variable st : State.
Let tf : N := native_ledger_transfer_fee st.
Let native : Principal := native_ledger_id st.
Variable p : Principal.
Let h : Holder := holder (default_account p).
Let cc (l : Principal) (c : LedgerCall) : N := op_cost self tf l h (c, 0).

Lemma cost_calls l ops : sum_of (op_cost self tf l h) ops = sum_of (cc l) (map fst ops).
Proof. unfold sum_of, sum. induction ops as [|o ops IH]; cbn [map fold_right]; [reflexivity|]. rewrite IH. reflexivity. Qed.
Lemma cost_prefix l cs ds : prefix cs ds -> sum_of (cc l) cs <= sum_of (cc l) ds.
Proof. intros (r & ->). rewrite sum_of_app. lia. Qed.

Lemma self_default : holder_eqb (holder (default_account self)) (minting self) = true.
Proof. apply holder_eqb_refl. Qed.
Lemma self_fees : holder_eqb (holder (fees_account self)) (minting self) = false.
Proof. destruct (holder_eqb_spec (holder (fees_account self)) (minting self)) as [E|]; [destruct (fees_not_minter self E)|reflexivity]. Qed.
Lemma fees_not_h : holder_eqb (holder (fees_account self)) h = false.
Proof. destruct (holder_eqb_spec (holder (fees_account self)) h) as [E|]; [injection E as E; discriminate|reflexivity]. Qed.

Lemma cost_fee l : match withdrawal_native_fee st with Some f => tf <= f | None => True end ->
  sum_of (cc l) (fee_calls self st p) = if bytes_eqb native l then fee st else 0.
Proof.
  unfold fee_calls, fee. destruct (withdrawal_native_fee st) as [f|]; intros Hf; [|destruct (bytes_eqb native l); reflexivity].
  rewrite sum_of_one. unfold cc, op_cost. cbn [fst]. rewrite self_fees. unfold h at 1. rewrite holder_eqb_refl, andb_true_r.
  fold native tf. destruct (bytes_eqb native l); [lia|reflexivity].
Qed.
Lemma cost_refund l : sum_of (cc l) (refund_calls self st p) = 0.
Proof.
  unfold refund_calls. destruct (withdrawal_native_fee st) as [f|]; [|reflexivity].
  rewrite sum_of_one. unfold cc, op_cost. cbn [fst]. rewrite fees_not_h, andb_false_r. reflexivity.
Qed.
Lemma cost_burn l led n m : cc l (burn_of self led (default_account p) n m) = if bytes_eqb led l then n else 0.
Proof.
  unfold cc, op_cost, burn_of. cbn [fst]. rewrite self_default. unfold h. rewrite holder_eqb_refl, andb_true_r, N.add_0_r. reflexivity.
Qed.

Lemma cost_native l a r ops evs o : match withdrawal_native_fee st with Some f => tf <= f | None => True end ->
  native_result self st p a r ops evs o ->
  sum_of (op_cost self tf l h) ops <= (if bytes_eqb native l then N.max a (fee st) else 0) /\
  (forall q, o = OutNative (ROk q) -> sum_of (op_cost self tf l h) ops = if bytes_eqb native l then a else 0).
Proof.
  intros Hf H. rewrite cost_calls. pose proof (cost_fee l Hf) as F. pose proof (cost_refund l) as R.
  destruct H as [e _ _|d _ _ _|d e _ _|d paid b t _ Ha E|d e paid back _ _ Ha E Hb| |d ops _ Hops]; cbn [map];
    try (split; [cbn; apply N.le_0_l|discriminate]).
  - rewrite map_app, sum_of_app, E, F. cbn [map fst]. rewrite sum_of_one. unfold native_burn. rewrite cost_burn. fold native.
    destruct (bytes_eqb native l); split; intros; lia.
  - rewrite map_app, sum_of_app, E, F. apply (cost_prefix l) in Hb. rewrite R in Hb.
    split; [|discriminate]. destruct (bytes_eqb native l); lia.
  - split; [|discriminate]. destruct Hops as [Hops|(Ha & ->)].
    + apply (cost_prefix l) in Hops. rewrite sum_of_app, F, R in Hops. destruct (bytes_eqb native l); lia.
    + rewrite sum_of_app, F, sum_of_one. unfold native_burn. rewrite cost_burn. fold native. destruct (bytes_eqb native l); lia.
Qed.

(** a token withdrawal: the fee and the gas fee in native tokens, and the tokens *)
Lemma cost_erc20 now a led r fees ops evs o : match withdrawal_native_fee st with Some f => tf <= f | None => True end ->
  erc20_result self st now p a led r fees ops evs o ->
  ops = [] \/ exists g, quoted st now fees g /\ forall l,
    sum_of (op_cost self tf l h) ops <= (if bytes_eqb native l then fee st + g else 0) + (if bytes_eqb led l then a else 0) /\
    (forall q, o = OutErc20 (ROk q) -> g = ew_max_transaction_fee q /\
       sum_of (op_cost self tf l h) ops = (if bytes_eqb native l then fee st + g else 0) + (if bytes_eqb led l then a else 0)).
Proof.
  intros Hf H.
  destruct H as [e _ _|d _ _ _|d tk _|d tk g e _ _ _|d tk g paid i b t Hv Hq E|d tk g e paid back Hv Hq E Hb
    |d tk g paid i e back o Hv Hq E Hb Ho| |d tk g ops Hv Hq Hops|d tk g paid i more Hv Hq E Hm]; auto; right; exists g; (split; [exact Hq|]);
    intros l; rewrite cost_calls; pose proof (cost_fee l Hf) as F; pose proof (cost_refund l) as R.
  - destruct Hv as (_ & _ & (El & _) & _). rewrite map_app, sum_of_app, E, F. cbn [map fst].
    change (sum_of (cc l) [gas_burn self st p a g tk d; token_burn self p a tk i d])
      with (sum_of (cc l) ([gas_burn self st p a g tk d] ++ [token_burn self p a tk i d])).
    rewrite sum_of_app, !sum_of_one. unfold gas_burn, token_burn. rewrite !cost_burn, El. fold native.
    split; [|intros q' Eq; injection Eq as <-; split; [reflexivity|]]; destruct (bytes_eqb native l), (bytes_eqb led l); lia.
  - rewrite map_app, sum_of_app, E, F. apply (cost_prefix l) in Hb. rewrite R in Hb.
    split; [|discriminate]. destruct (bytes_eqb native l); lia.
  - rewrite map_app, sum_of_app, E, F. cbn [map fst].
    change (gas_burn self st p a g tk d :: map fst back) with ([gas_burn self st p a g tk d] ++ map fst back).
    rewrite sum_of_app, sum_of_one. apply (cost_prefix l) in Hb. rewrite R in Hb. unfold gas_burn. rewrite cost_burn. fold native.
    split; [destruct (bytes_eqb native l); lia|]. intros q Eq. destruct Ho as [->| ->]; discriminate.
  - split; [|discriminate]. apply (cost_prefix l) in Hops. rewrite sum_of_app, F, R in Hops. destruct (bytes_eqb native l); lia.
  - destruct Hv as (_ & _ & (El & _) & _). rewrite map_app, sum_of_app, E, F. cbn [map fst].
    change (gas_burn self st p a g tk d :: map fst more) with ([gas_burn self st p a g tk d] ++ map fst more).
    rewrite sum_of_app, sum_of_one. apply (cost_prefix l) in Hm. rewrite sum_of_one in Hm. unfold gas_burn, token_burn in *.
    rewrite cost_burn in *. rewrite El in Hm. fold native. split; [destruct (bytes_eqb native l), (bytes_eqb led l); lia|discriminate].
Qed.
End Cost.
