(** * Base: panics, Rust results, 256-bit bounds, general tactics.

    Nothing here models a particular file of /repo; these are the conventions
    used by all model files. *)

From Coq Require Export List NArith ZArith Lia Bool String Arith.
From Coq Require Export ZifyBool ZifyNat ZifyN.
From Coq Require Export Sorting.Permutation Sorting.Sorted.
Export ListNotations.
#[global] Open Scope N_scope.
#[global] Open Scope bool_scope.

Ltac Zify.zify_post_hook ::= Z.div_mod_to_equations.

Arguments N.add : simpl never.
Arguments N.sub : simpl never.
Arguments N.mul : simpl never.
Arguments N.div : simpl never.
Arguments N.modulo : simpl never.
Arguments N.pow : simpl never.
Arguments N.leb : simpl never.
Arguments N.ltb : simpl never.
Arguments N.eqb : simpl never.
Arguments N.compare : simpl never.
Arguments N.max : simpl never.
Arguments N.min : simpl never.

(** A computation of the minter either returns or panics (a Rust [panic!],
    failed [assert!], [expect]/[unwrap] on the wrong variant, slice index out of
    range; on the Internet Computer a panic is a trap). *)
Inductive res (A : Type) : Type :=
| Done (a : A)
| Panic (why : string).
Arguments Done {A} a.
Arguments Panic {A} why.

Definition rbind {A B} (x : res A) (f : A -> res B) : res B :=
  match x with Done a => f a | Panic w => Panic w end.

Declare Scope res_scope.
Delimit Scope res_scope with res.
Notation "x <- e ;; f" := (rbind e (fun x => f))
  (at level 61, e at next level, right associativity) : res_scope.
Notation "' p <- e ;; f" := (rbind e (fun p => f))
  (at level 61, p pattern, e at next level, right associativity) : res_scope.
#[global] Open Scope res_scope.

(** [assert!(b, msg)] *)
Definition rassert (b : bool) (msg : string) : res unit :=
  if b then Done tt else Panic msg.

(** [opt.expect(msg)] / [opt.unwrap()] *)
Definition expect {A} (o : option A) (msg : string) : res A :=
  match o with Some a => Done a | None => Panic msg end.

Definition is_done {A} (x : res A) : bool :=
  match x with Done _ => true | Panic _ => false end.

(** Rust [Result<A,E>] *)
Inductive result (A E : Type) : Type :=
| ROk (a : A)
| RErr (e : E).
Arguments ROk {A E} a.
Arguments RErr {A E} e.

Definition is_some {A} (o : option A) : bool :=
  match o with Some _ => true | None => false end.

Definition obind {A B} (o : option A) (f : A -> option B) : option B :=
  match o with Some a => f a | None => None end.

(** Maximal values of the fixed-width integers used by the code. *)
Definition U256_MAX : N := 2 ^ 256 - 1.
Definition U128_MAX : N := 2 ^ 128 - 1.
Definition U64_MAX : N := 2 ^ 64 - 1.

Definition is_u256 (n : N) : Prop := n <= U256_MAX.
Definition is_u64 (n : N) : Prop := n <= U64_MAX.

(** Fold of a panicking step over a list. *)
Fixpoint rfold {A S} (f : S -> A -> res S) (s : S) (l : list A) : res S :=
  match l with
  | [] => Done s
  | a :: l' => s' <- f s a ;; rfold f s' l'
  end.

Lemma rfold_app {A S} (f : S -> A -> res S) s l1 l2 :
  rfold f s (l1 ++ l2) = (s' <- rfold f s l1 ;; rfold f s' l2).
Proof.
  revert s; induction l1 as [|a l1 IH]; intros s; cbn; [reflexivity|].
  destruct (f s a); cbn; auto.
Qed.

Lemma rbind_done {A B} (x : res A) (f : A -> res B) b :
  rbind x f = Done b <-> exists a, x = Done a /\ f a = Done b.
Proof.
  destruct x as [a|w]; cbn; split.
  - intros H; exists a; auto.
  - intros (a' & Ha & Hf); inversion Ha; subst; auto.
  - discriminate.
  - intros (a' & Ha & _); discriminate.
Qed.

Lemma rassert_done b m u : rassert b m = Done u <-> b = true.
Proof. destruct b, u; cbn; split; congruence. Qed.

Lemma expect_done {A} (o : option A) m a : expect o m = Done a <-> o = Some a.
Proof. destruct o; cbn; split; congruence. Qed.

(** Decompose hypotheses of the form [(x <- e ;; f) = Done v]. *)
Ltac inv_res :=
  repeat match goal with
  | H : rbind ?e ?f = Done _ |- _ =>
      let a := fresh "x" in let Ha := fresh "H" in
      apply rbind_done in H; destruct H as (a & Ha & H)
  | H : rassert ?b _ = Done _ |- _ => apply rassert_done in H
  | H : expect ?o _ = Done _ |- _ => apply expect_done in H
  | H : Done _ = Done _ |- _ => injection H as H; subst
  | H : Panic _ = Done _ |- _ => discriminate H
  | H : Done _ = Panic _ |- _ => discriminate H
  end.

Lemma N_add_sub_le a b : b <= a -> a - b + b = a.
Proof. lia. Qed.
