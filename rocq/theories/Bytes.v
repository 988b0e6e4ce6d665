(** * Bytes: big-endian byte strings.

    Bytes are [N] below 256; byte strings are [list N]. Modelled conversions:
    [ethnum::u256::{to,from}_be_bytes] as used by
    /repo/minter/src/checked_amount/mod.rs 92-98. *)

From Verif Require Import Base.

Definition byte_list (l : list N) : Prop := Forall (fun b => b < 256) l.

(** [of_be l]: number denoted by a big-endian byte string. *)
Definition of_be (l : list N) : N := fold_left (fun acc b => acc * 256 + b) l 0.

(** [be_bytes len n]: the [len] low-order bytes of [n], most significant first. *)
Fixpoint be_bytes (len : nat) (n : N) : list N :=
  match len with
  | O => []
  | S len' => be_bytes len' (n / 256) ++ [n mod 256]
  end.

(** Remove leading zero bytes. *)
Fixpoint strip0 (l : list N) : list N :=
  match l with
  | 0 :: l' => strip0 l'
  | _ => l
  end.

(** Minimal big-endian encoding of a 256-bit number (zero is empty). *)
Definition be_min (n : N) : list N := strip0 (be_bytes 32 n).

Lemma of_be_app l1 l2 : of_be (l1 ++ l2) = fold_left (fun acc b => acc * 256 + b) l2 (of_be l1).
Proof. unfold of_be. apply fold_left_app. Qed.

Lemma of_be_snoc l b : of_be (l ++ [b]) = of_be l * 256 + b.
Proof. rewrite of_be_app. reflexivity. Qed.

Lemma be_bytes_length len n : List.length (be_bytes len n) = len.
Proof.
  revert n; induction len as [|len IH]; intros n; cbn; auto.
  rewrite app_length, IH. cbn. lia.
Qed.

Lemma be_bytes_byte_list len n : byte_list (be_bytes len n).
Proof.
  revert n; induction len as [|len IH]; intros n; cbn; [constructor|].
  apply Forall_app; split; [apply IH|]. constructor; [|constructor].
  apply N.mod_lt; lia.
Qed.

Lemma pow256_S len : 256 ^ N.of_nat (S len) = 256 * 256 ^ N.of_nat len.
Proof. rewrite Nat2N.inj_succ, N.pow_succ_r'. reflexivity. Qed.

Lemma pow256_pos len : 0 < 256 ^ N.of_nat len.
Proof. apply N.neq_0_lt_0. apply N.pow_nonzero. lia. Qed.

Lemma of_be_be_bytes len n : of_be (be_bytes len n) = n mod 256 ^ N.of_nat len.
Proof.
  revert n; induction len as [|len IH]; intros n.
  - cbn. rewrite N.mod_1_r. reflexivity.
  - cbn [be_bytes]. rewrite of_be_snoc, IH, pow256_S.
    pose proof (pow256_pos len) as Hp.
    rewrite N.mod_mul_r by lia. lia.
Qed.

Lemma of_be_be_bytes_small len n : n < 256 ^ N.of_nat len -> of_be (be_bytes len n) = n.
Proof. intros H. rewrite of_be_be_bytes. apply N.mod_small; auto. Qed.

Lemma of_be_lt l : byte_list l -> of_be l < 256 ^ N.of_nat (List.length l).
Proof.
  induction l as [|b l IH] using rev_ind; intros Hb.
  - cbn. lia.
  - apply Forall_app in Hb. destruct Hb as [Hl Hb]. inversion Hb; subst.
    rewrite of_be_snoc, app_length. cbn [List.length]. rewrite Nat.add_1_r, pow256_S.
    specialize (IH Hl). nia.
Qed.

Lemma be_bytes_of_be l : byte_list l -> be_bytes (List.length l) (of_be l) = l.
Proof.
  induction l as [|b l IH] using rev_ind; intros Hb; auto.
  apply Forall_app in Hb. destruct Hb as [Hl Hb]. inversion Hb; subst.
  rewrite of_be_snoc, app_length. cbn [List.length]. rewrite Nat.add_1_r. cbn [be_bytes].
  rewrite N.div_add_l by lia. rewrite (N.div_small b 256) by auto. rewrite N.add_0_r.
  rewrite IH by auto. rewrite N.add_comm, N.mod_add by lia. rewrite N.mod_small by auto.
  reflexivity.
Qed.

Lemma be_bytes_inj len n m :
  n < 256 ^ N.of_nat len -> m < 256 ^ N.of_nat len ->
  be_bytes len n = be_bytes len m -> n = m.
Proof.
  intros Hn Hm He. rewrite <- (of_be_be_bytes_small len n Hn), He.
  apply of_be_be_bytes_small; auto.
Qed.

Lemma of_be_cons0 l : of_be (0 :: l) = of_be l.
Proof. reflexivity. Qed.

Lemma of_be_strip0 l : of_be (strip0 l) = of_be l.
Proof.
  induction l as [|b l IH]; auto. cbn [strip0]. destruct b; auto.
Qed.

Lemma strip0_byte_list l : byte_list l -> byte_list (strip0 l).
Proof.
  induction l as [|b l IH]; intros H; auto. cbn [strip0]. destruct b; auto.
  inversion H; auto.
Qed.

Lemma strip0_length l : (List.length (strip0 l) <= List.length l)%nat.
Proof. induction l as [|b l IH]; auto. cbn [strip0]. destruct b; cbn; lia. Qed.

Lemma u256_pow : 256 ^ N.of_nat 32 = U256_MAX + 1.
Proof. reflexivity. Qed.
Lemma u64_pow : 256 ^ N.of_nat 8 = U64_MAX + 1.
Proof. reflexivity. Qed.
Lemma addr_pow : 256 ^ N.of_nat 20 = 2 ^ 160.
Proof. reflexivity. Qed.

Lemma of_be_be_min n : is_u256 n -> of_be (be_min n) = n.
Proof.
  intros H. unfold be_min. rewrite of_be_strip0. apply of_be_be_bytes_small.
  rewrite u256_pow. unfold is_u256 in H. lia.
Qed.

Lemma be_min_inj n m : is_u256 n -> is_u256 m -> be_min n = be_min m -> n = m.
Proof. intros Hn Hm He. rewrite <- (of_be_be_min n), He; auto. apply of_be_be_min; auto. Qed.

Lemma be_min_length n : (List.length (be_min n) <= 32)%nat.
Proof. unfold be_min. rewrite <- (be_bytes_length 32 n) at 2. apply strip0_length. Qed.

Lemma be_min_byte_list n : byte_list (be_min n).
Proof. apply strip0_byte_list, be_bytes_byte_list. Qed.

(** A stripped string has no leading zero. *)
Lemma strip0_head l : match strip0 l with 0 :: _ => False | _ => True end.
Proof. induction l as [|b l IH]; cbn; auto. destruct b; auto. Qed.

(** Equality of byte strings. *)
Fixpoint bytes_eqb (a b : list N) : bool :=
  match a, b with
  | [], [] => true
  | x :: a', y :: b' => N.eqb x y && bytes_eqb a' b'
  | _, _ => false
  end.

Lemma bytes_eqb_eq a : forall b, bytes_eqb a b = true <-> a = b.
Proof.
  induction a as [|x a IH]; intros [|y b]; cbn; try (split; [discriminate|congruence]).
  - split; auto.
  - rewrite andb_true_iff, N.eqb_eq, IH. split.
    + intros [-> ->]; auto.
    + injection 1 as -> ->; auto.
Qed.
Lemma bytes_eqb_refl a : bytes_eqb a a = true.
Proof. apply bytes_eqb_eq; auto. Qed.
