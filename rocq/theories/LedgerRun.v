(** * Concrete runs of the minter with its ledgers, for the witnesses of C76 to C78 *)

From Verif Require Import Base BMap MultiKeyMap Bytes Types Amount Tx CallData Network Hex
  Transactions State Audit Ranges Rlp Parser Memo Driver Sys SysSpec GuardSpec BalanceSpec Ledger LedgerSpec Scenario.

Inductive Act :=
| Minter (l : Label)
| Other (p : Principal) (d : Doing).

Definition joint_step (s : Sys) (ls : Ledgers) (a : Act) : option (Sys * Ledgers) :=
  match a with
  | Other p d =>
      if match doer d with Some q => bytes_eqb q self0 | None => false end then None
      else match perform self0 d (ls p) with Some l => Some (s, set_ledger p l ls) | None => None end
  | Minter (LAnswer id (ReLedger (LedgerOk b))) =>
      match bget id (sys_tasks s) with
      | Some {| fl_task := t; fl_reply := None |} =>
          match task_call self0 t with
          | Some c => match execute self0 c (ls (call_ledger c)) with
                      | Some (b', l) => if b =? b' then Some (step self0 keccak0 s (LAnswer id (ReLedger (LedgerOk b))), set_ledger (call_ledger c) l ls) else None
                      | None => None
                      end
          | None => None
          end
      | _ => None
      end
  | Minter l =>
      if match l with
         | LCall u _ => match withdrawing u with Some p => bytes_eqb p self0 | None => false end
         | LUpgrade _ _ => true
         | _ => false
         end then None else Some (step self0 keccak0 s l, ls)
  end.
Fixpoint joint (s : Sys) (ls : Ledgers) (acts : list Act) : option (Sys * Ledgers) :=
  match acts with
  | [] => Some (s, ls)
  | a :: acts => match joint_step s ls a with Some (s, ls) => joint s ls acts | None => None end
  end.

(** Ledgers with a transfer fee of 10 *)
Definition ledgers0 : Ledgers :=
  fun _ => {| lg_balance := fun _ => 0; lg_allowance := fun _ _ => 0; lg_next := 0; lg_fee := 10 |}.
Definition joint0 (acts : list Act) : option (Sys * Ledgers) :=
  match start0 with Done s => joint s ledgers0 acts | _ => None end.

Lemma bytes_ne a b : bytes_eqb a b = false -> a <> b.
Proof. intros H ->. rewrite bytes_eqb_refl in H. discriminate. Qed.

Section Env.
Variable env : Sys -> Label -> Prop.

Lemma joint_step_together s ls a s' ls' : (forall x l, a = Minter l -> no_upgrade l = true -> env x l) -> joint_step s ls a = Some (s', ls') ->
  together self0 keccak0 env s ls -> together self0 keccak0 env s' ls'.
Proof.
  intros Henv H Ht. destruct a as [l|p d].
  - assert (Hq : (forall id b, l <> LAnswer id (ReLedger (LedgerOk b))) ->
                 (if match l with LCall u _ => match withdrawing u with Some p => bytes_eqb p self0 | None => false end
                     | LUpgrade _ _ => true | _ => false end then None else Some (step self0 keccak0 s l, ls)) = Some (s', ls') ->
                 together self0 keccak0 env s' ls').
    { intros Hl E. destruct (match l with LCall _ _ => _ | _ => _ end) eqn:Eb in E; [discriminate|].
      assert (step self0 keccak0 s l = s' /\ ls = ls') as [<- <-] by (split; congruence).
      apply to_minter; auto.
      - apply Henv; [reflexivity|]. destruct l; auto; discriminate.
      - destruct l; cbn; auto. destruct (withdrawing u) as [p|]; [|discriminate]. apply bytes_ne in Eb. congruence. }
    destruct l as [k n|u n|id r|id trap n|a n]; try (apply Hq; [discriminate|exact H]).
    destruct r as [[b| |]| | | | | | | ]; try (apply Hq; [discriminate|exact H]).
    clear Hq. unfold joint_step in H. destruct (bget id (sys_tasks s)) as [[t [r|]]|] eqn:Eg; try discriminate.
    destruct (task_call self0 t) as [c|] eqn:Ec; [|discriminate].
    destruct (execute self0 c (ls (call_ledger c))) as [[b' l]|] eqn:Ex; [|discriminate].
    destruct (N.eqb_spec b b') as [<-|]; [|discriminate].
    assert (step self0 keccak0 s (LAnswer id (ReLedger (LedgerOk b))) = s' /\ set_ledger (call_ledger c) l ls = ls') as [<- <-] by (split; congruence).
    apply (to_ledger self0 keccak0 env s ls id c b); [exact Ht|apply Henv; reflexivity|].
    exists t, l. auto.
  - unfold joint_step in H. destruct (match doer d with Some q => _ | None => _ end) eqn:Ed; [discriminate|].
    destruct (perform self0 d (ls p)) as [l|] eqn:Ep; [|discriminate]. injection H as <- <-.
    apply (to_others self0 keccak0 env s ls p d l); auto. intros E. rewrite E, bytes_eqb_refl in Ed. discriminate.
Qed.
Lemma joint_together acts : (forall x l, In (Minter l) acts -> no_upgrade l = true -> env x l) -> forall s ls s' ls', joint s ls acts = Some (s', ls') ->
  together self0 keccak0 env s ls -> together self0 keccak0 env s' ls'.
Proof.
  induction acts as [|a acts IH]; cbn [joint]; intros Henv s ls s' ls' H Ht.
  - assert (s = s' /\ ls = ls') as [<- <-] by (split; congruence). exact Ht.
  - destruct (joint_step s ls a) as [[s1 ls1]|] eqn:E; [|discriminate]. apply (IH (fun x l Hl => Henv x l (or_intror Hl)) _ _ _ _ H).
    apply (joint_step_together s ls a s1 ls1); auto. intros x l ->. apply Henv. left. reflexivity.
Qed.
Lemma joint0_together acts s ls : (forall x l, In (Minter l) acts -> no_upgrade l = true -> env x l) -> joint0 acts = Some (s, ls) -> together self0 keccak0 env s ls.
Proof.
  intros Henv. unfold joint0. destruct start0 as [s0|] eqn:E; [|discriminate]. intros H. apply (joint_together _ Henv _ _ _ _ H).
  exact (to_start self0 keccak0 env 1 init0 s0 ledgers0 E ltac:(intros p; split; reflexivity)).
Qed.
End Env.

(** The user deposits and approves 51000000 on the native ledger and 4000 on the token's. *)
Definition user_account : Holder := holder (default_account user0).
Definition approve0 : list Act :=
  [Other native_ledger0 (DoApprove user_account (minting self0) 51000000);
   Other token_ledger0 (DoApprove user_account (minting self0) 4000)].
Definition before_approval : list Act := map Minter (register0 ++ scrape0 ++ mint0).
Definition before_request : list Act := before_approval ++ approve0.
(** Then they withdraw 50000000, of which 500 are the fee; meanwhile they spend tokens. *)
Definition request0 : list Act :=
  Minter (LCall (CallWithdrawNative user0 50000000 payee0) 40) :: map Minter (ledger_ok 3 3 41) ++
  [Other native_ledger0 (DoTransfer user_account (holder (default_account [8; 8])) 777)].
Definition burned0 : list Act := map Minter (ledger_ok 3 5 42).
(** Instead, they approve the fee only. *)
Definition approve_fee : list Act :=
  [Other native_ledger0 (DoApprove user_account (minting self0) 600)].
Definition refused0 : list Act :=
  map Minter (LCall (CallWithdrawNative user0 50000000 payee0) 40 :: ledger_ok 3 3 41 ++
    ans 3 (ReLedger (LedgerErr InsufficientAllowance)) 42 ++ ans 3 (ReLedger (LedgerErr InsufficientAllowance)) 43).
