(** * BMap: ordered maps.

    Model of [std::collections::BTreeMap]/[BTreeSet]: an association list sorted
    by key. [insert] keeps the list sorted, so iterating the list is iterating
    the BTreeMap in ascending key order. *)

From Verif Require Import Base.

(** Total orders, as used by Rust's [Ord]. *)
Class Ord (K : Type) : Type := {
  cmp : K -> K -> comparison;
  cmp_eq : forall a b, cmp a b = Eq <-> a = b;
  cmp_antisym : forall a b, cmp b a = CompOpp (cmp a b);
  cmp_trans : forall a b c, cmp a b = Lt -> cmp b c = Lt -> cmp a c = Lt
}.

Lemma cmp_refl {K} `{Ord K} a : cmp a a = Eq.
Proof. apply cmp_eq; reflexivity. Qed.

Definition keqb {K} `{Ord K} (a b : K) : bool :=
  match cmp a b with Eq => true | _ => false end.

Lemma keqb_eq {K} `{Ord K} a b : keqb a b = true <-> a = b.
Proof.
  unfold keqb. rewrite <- (cmp_eq a b). destruct (cmp a b); split; congruence.
Qed.
Lemma keqb_refl {K} `{Ord K} a : keqb a a = true.
Proof. apply keqb_eq; reflexivity. Qed.
Lemma keqb_neq {K} `{Ord K} a b : keqb a b = false <-> a <> b.
Proof.
  destruct (keqb a b) eqn:E.
  - apply keqb_eq in E. split; [discriminate|]. intros C; contradiction.
  - split; auto. intros _ ->. rewrite keqb_refl in E. discriminate.
Qed.
Lemma keqb_sym {K} `{Ord K} a b : keqb a b = keqb b a.
Proof.
  destruct (keqb a b) eqn:E.
  - apply keqb_eq in E; subst. symmetry; apply keqb_refl.
  - symmetry. apply keqb_neq. apply keqb_neq in E. congruence.
Qed.
Lemma keqb_spec {K} `{Ord K} a b : reflect (a = b) (keqb a b).
Proof.
  destruct (keqb a b) eqn:E; constructor; [apply keqb_eq|apply keqb_neq]; auto.
Qed.
Lemma key_dec {K} `{Ord K} (a b : K) : {a = b} + {a <> b}.
Proof. destruct (keqb_spec a b); auto. Qed.

Lemma cmp_gt_lt {K} `{Ord K} a b : cmp a b = Gt <-> cmp b a = Lt.
Proof. rewrite (cmp_antisym a b). destruct (cmp a b); cbn; split; congruence. Qed.

Definition klt {K} `{Ord K} (a b : K) : Prop := cmp a b = Lt.

Lemma klt_irrefl {K} `{Ord K} a : ~ klt a a.
Proof. unfold klt. rewrite cmp_refl. discriminate. Qed.
Lemma klt_trans {K} `{Ord K} a b c : klt a b -> klt b c -> klt a c.
Proof. apply cmp_trans. Qed.

(** ** Instances *)
#[local] Obligation Tactic := idtac.

#[global] Program Instance Ord_N : Ord N := {| cmp := N.compare |}.
Next Obligation. intros; apply N.compare_eq_iff. Qed.
Next Obligation. intros; apply N.compare_antisym. Qed.
Next Obligation.
  cbn; intros. rewrite N.compare_lt_iff in *. lia.
Qed.

Lemma klt_N a b : klt a b <-> (a < b)%N.
Proof. apply N.compare_lt_iff. Qed.
Lemma keqb_N (a b : N) : keqb a b = N.eqb a b.
Proof.
  unfold keqb; cbn. destruct (N.compare_spec a b) as [H|H|H]; symmetry.
  - apply N.eqb_eq; auto.
  - apply N.eqb_neq; lia.
  - apply N.eqb_neq; lia.
Qed.

Definition pair_cmp {A B} `{Ord A} `{Ord B} (x y : A * B) : comparison :=
  match cmp (fst x) (fst y) with Eq => cmp (snd x) (snd y) | c => c end.

#[global] Program Instance Ord_pair {A B} `{Ord A} `{Ord B} : Ord (A * B) :=
  {| cmp := pair_cmp |}.
Next Obligation.
  intros A B HA HB [a1 b1] [a2 b2]; unfold pair_cmp; cbn.
  destruct (cmp a1 a2) eqn:E.
  - apply cmp_eq in E; subst. rewrite cmp_eq. split; congruence.
  - split; [discriminate|]. intros Heq; injection Heq as -> ->.
    rewrite cmp_refl in E; discriminate.
  - split; [discriminate|]. intros Heq; injection Heq as -> ->.
    rewrite cmp_refl in E; discriminate.
Qed.
Next Obligation.
  intros A B HA HB [a1 b1] [a2 b2]; unfold pair_cmp; cbn.
  rewrite (cmp_antisym a1 a2). destruct (cmp a1 a2); cbn; auto using cmp_antisym.
Qed.
Next Obligation.
  intros A B HA HB [a1 b1] [a2 b2] [a3 b3]; unfold pair_cmp; cbn.
  destruct (cmp a1 a2) eqn:E1; try discriminate.
  - apply cmp_eq in E1; subst. destruct (cmp a2 a3); try discriminate; auto.
    apply cmp_trans.
  - destruct (cmp a2 a3) eqn:E2; try discriminate.
    + apply cmp_eq in E2; subst. rewrite E1; auto.
    + rewrite (cmp_trans _ _ _ E1 E2); auto.
Qed.

Fixpoint list_cmp {A} `{Ord A} (x y : list A) : comparison :=
  match x, y with
  | [], [] => Eq
  | [], _ :: _ => Lt
  | _ :: _, [] => Gt
  | a :: x', b :: y' => match cmp a b with Eq => list_cmp x' y' | c => c end
  end.

#[global] Program Instance Ord_list {A} `{Ord A} : Ord (list A) :=
  {| cmp := list_cmp |}.
Next Obligation.
  intros A HA x; induction x as [|a x IH]; intros [|b y]; cbn.
  - split; auto.
  - split; discriminate.
  - split; discriminate.
  - destruct (cmp a b) eqn:E.
    + apply cmp_eq in E; subst. rewrite IH. split; congruence.
    + split; [discriminate|]. intros Heq; injection Heq as -> ->.
      rewrite cmp_refl in E; discriminate.
    + split; [discriminate|]. intros Heq; injection Heq as -> ->.
      rewrite cmp_refl in E; discriminate.
Qed.
Next Obligation.
  intros A HA x; induction x as [|a x IH]; intros [|b y]; cbn; auto.
  rewrite (cmp_antisym a b). destruct (cmp a b); cbn; auto.
Qed.
Next Obligation.
  intros A HA x; induction x as [|a x IH]; intros [|b y] [|c z]; cbn; auto; try discriminate.
  destruct (cmp a b) eqn:E1; try discriminate.
  - apply cmp_eq in E1; subst. destruct (cmp b c); try discriminate; auto.
    apply IH.
  - destruct (cmp b c) eqn:E2; try discriminate.
    + apply cmp_eq in E2; subst. rewrite E1; auto.
    + rewrite (cmp_trans _ _ _ E1 E2); auto.
Qed.

(** An order along an injection. *)
Definition Ord_inj {A B} (f : A -> B) (HB : Ord B)
  (inj : forall x y, f x = f y -> x = y) : Ord A.
Proof.
  refine {| cmp := fun x y => cmp (f x) (f y) |}.
  - intros a b. rewrite cmp_eq. split; [apply inj|congruence].
  - intros a b. apply cmp_antisym.
  - intros a b c. apply cmp_trans.
Defined.

(** ** Maps *)

Section BMap.
  Context {K : Type} `{OK : Ord K}.

  Definition bmap (V : Type) := list (K * V).
  Definition bset := bmap unit.

  Section V.
  Context {V : Type}.

  Fixpoint bget (k : K) (m : bmap V) : option V :=
    match m with
    | [] => None
    | (k', v) :: m' => if keqb k k' then Some v else bget k m'
    end.

  Definition bmem (k : K) (m : bmap V) : bool := is_some (bget k m).

  Fixpoint binsert (k : K) (v : V) (m : bmap V) : bmap V :=
    match m with
    | [] => [(k, v)]
    | (k', v') :: m' =>
        match cmp k k' with
        | Lt => (k, v) :: m
        | Eq => (k, v) :: m'
        | Gt => (k', v') :: binsert k v m'
        end
    end.

  Fixpoint bremove (k : K) (m : bmap V) : bmap V :=
    match m with
    | [] => []
    | (k', v') :: m' => if keqb k k' then bremove k m' else (k', v') :: bremove k m'
    end.

  Definition bkeys (m : bmap V) : list K := map fst m.
  Definition bvals (m : bmap V) : list V := map snd m.

  (** Lookup laws (no well-formedness needed). *)
  Lemma bget_insert_eq k v m : bget k (binsert k v m) = Some v.
  Proof.
    induction m as [|[k' v'] m IH]; cbn.
    - rewrite keqb_refl; auto.
    - destruct (cmp k k') eqn:E; cbn.
      + rewrite keqb_refl; auto.
      + rewrite keqb_refl; auto.
      + unfold keqb; rewrite E; auto.
  Qed.

  Lemma bget_insert_ne k k' v m : k' <> k -> bget k' (binsert k v m) = bget k' m.
  Proof.
    intros Hne. induction m as [|[k1 v1] m IH]; cbn.
    - apply keqb_neq in Hne. rewrite Hne; auto.
    - destruct (cmp k k1) eqn:E; cbn.
      + apply cmp_eq in E; subst k1. apply keqb_neq in Hne. rewrite Hne; auto.
      + apply keqb_neq in Hne. rewrite Hne; auto.
      + destruct (keqb k' k1); auto.
  Qed.

  Lemma bget_insert k k' v m :
    bget k' (binsert k v m) = if keqb k' k then Some v else bget k' m.
  Proof.
    destruct (keqb_spec k' k) as [->|Hne]; [apply bget_insert_eq|apply bget_insert_ne; auto].
  Qed.

  Lemma bget_remove_eq k m : bget k (bremove k m) = None.
  Proof.
    induction m as [|[k1 v1] m IH]; cbn; auto.
    destruct (keqb k k1) eqn:E; cbn; auto. rewrite E; auto.
  Qed.

  Lemma bget_remove_ne k k' m : k' <> k -> bget k' (bremove k m) = bget k' m.
  Proof.
    intros Hne. induction m as [|[k1 v1] m IH]; cbn; auto.
    destruct (keqb_spec k k1) as [->|Hk]; cbn.
    - apply keqb_neq in Hne. rewrite Hne; auto.
    - destruct (keqb k' k1); auto.
  Qed.

  Lemma bget_remove k k' m :
    bget k' (bremove k m) = if keqb k' k then None else bget k' m.
  Proof.
    destruct (keqb_spec k' k) as [->|Hne]; [apply bget_remove_eq|apply bget_remove_ne; auto].
  Qed.

  Lemma bget_nil k : bget k [] = None.
  Proof. reflexivity. Qed.

  Lemma bget_In k v m : bget k m = Some v -> In (k, v) m.
  Proof.
    induction m as [|[k1 v1] m IH]; cbn; [discriminate|].
    destruct (keqb_spec k k1) as [->|Hk]; [injection 1 as ->; auto|auto].
  Qed.

  Lemma bget_In_keys k m : bget k m <> None <-> In k (bkeys m).
  Proof.
    induction m as [|[k1 v1] m IH]; cbn; [tauto|].
    destruct (keqb_spec k k1) as [->|Hk]; [split; [auto|discriminate]|].
    rewrite IH. split; [auto|]. intros [->|]; [contradiction|auto].
  Qed.

  Lemma bmem_true k m : bmem k m = true <-> exists v, bget k m = Some v.
  Proof.
    unfold bmem. destruct (bget k m); cbn; split; eauto; try discriminate.
    intros (v & H); discriminate.
  Qed.
  Lemma bmem_false k m : bmem k m = false <-> bget k m = None.
  Proof. unfold bmem. destruct (bget k m); cbn; split; congruence. Qed.
  Lemma bmem_In k m : bmem k m = true <-> In k (bkeys m).
  Proof.
    rewrite <- bget_In_keys. unfold bmem. destruct (bget k m); cbn; split; congruence.
  Qed.

  Lemma bmem_insert k k' v m : bmem k' (binsert k v m) = keqb k' k || bmem k' m.
  Proof. unfold bmem. rewrite bget_insert. destruct (keqb k' k); auto. Qed.
  Lemma bmem_remove k k' m : bmem k' (bremove k m) = negb (keqb k' k) && bmem k' m.
  Proof. unfold bmem. rewrite bget_remove. destruct (keqb k' k); auto. Qed.

  (** Sortedness *)
  Definition bsorted (m : bmap V) : Prop :=
    StronglySorted (fun a b => klt (fst a) (fst b)) m.

  Lemma bsorted_nil : bsorted [].
  Proof. constructor. Qed.

  Lemma bsorted_cons_inv k v m :
    bsorted ((k, v) :: m) -> bsorted m /\ Forall (fun b => klt k (fst b)) m.
  Proof. intros H; inversion H; subst; auto. Qed.

  Lemma binsert_Forall (P : K * V -> Prop) k v m :
    P (k, v) -> Forall P m -> Forall P (binsert k v m).
  Proof.
    intros Hp Hm. induction Hm as [|[k1 v1] m H1 Hm IH]; cbn; [auto|].
    destruct (cmp k k1); auto.
  Qed.

  Lemma bsorted_insert k v m : bsorted m -> bsorted (binsert k v m).
  Proof.
    unfold bsorted. induction m as [|[k1 v1] m IH]; cbn; intros Hs.
    - constructor; constructor.
    - inversion Hs as [|? ? Hs' Hf]; subst.
      destruct (cmp k k1) eqn:E.
      + apply cmp_eq in E; subst. constructor; auto.
      + constructor; auto. constructor; cbn; auto.
        eapply Forall_impl; [|exact Hf]. cbn. intros a Ha. eapply klt_trans; eauto.
      + constructor; auto. apply binsert_Forall; auto. cbn. apply cmp_gt_lt; auto.
  Qed.

  Lemma bremove_Forall (P : K * V -> Prop) k m :
    Forall P m -> Forall P (bremove k m).
  Proof.
    intros Hm. induction Hm as [|[k1 v1] m H1 Hm IH]; cbn; [auto|].
    destruct (keqb k k1); auto.
  Qed.

  Lemma bsorted_remove k m : bsorted m -> bsorted (bremove k m).
  Proof.
    unfold bsorted. induction m as [|[k1 v1] m IH]; cbn; intros Hs; auto.
    inversion Hs as [|? ? Hs' Hf]; subst.
    destruct (keqb k k1); auto.
    constructor; auto. apply bremove_Forall; auto.
  Qed.

  Lemma bsorted_NoDup m : bsorted m -> NoDup (bkeys m).
  Proof.
    unfold bsorted. induction 1 as [|[k v] m Hs IH Hf]; cbn; constructor; auto.
    intros Hin. apply in_map_iff in Hin. destruct Hin as ([k1 v1] & Heq & Hin).
    cbn in Heq; subst. rewrite Forall_forall in Hf. specialize (Hf _ Hin). cbn in Hf.
    apply (klt_irrefl _ Hf).
  Qed.

  Lemma bget_of_In k v m : NoDup (bkeys m) -> In (k, v) m -> bget k m = Some v.
  Proof.
    induction m as [|[k1 v1] m IH]; cbn; [tauto|].
    intros Hnd [Heq|Hin].
    - injection Heq as -> ->. rewrite keqb_refl; auto.
    - inversion Hnd; subst. destruct (keqb_spec k k1) as [->|Hk]; auto.
      exfalso. apply H1. apply in_map_iff. exists (k1, v); auto.
  Qed.

  Lemma bget_iff_In k v m : bsorted m -> (bget k m = Some v <-> In (k, v) m).
  Proof.
    intros Hs; split; [apply bget_In|apply bget_of_In, bsorted_NoDup; auto].
  Qed.

  Lemma bget_head_lt k k1 v1 m :
    bsorted ((k1, v1) :: m) -> klt k k1 -> bget k ((k1, v1) :: m) = None.
  Proof.
    intros Hs Hlt. apply bsorted_cons_inv in Hs. destruct Hs as [Hs Hf].
    destruct (bget k ((k1, v1) :: m)) as [v|] eqn:E; auto.
    apply bget_In in E. destruct E as [E|E].
    - injection E as -> ->. destruct (klt_irrefl _ Hlt).
    - rewrite Forall_forall in Hf. specialize (Hf _ E). cbn in Hf.
      destruct (klt_irrefl k). eapply klt_trans; eauto.
  Qed.

  (** Sorted maps with equal lookups are equal. *)
  Lemma bmap_ext m1 : forall m2,
    bsorted m1 -> bsorted m2 -> (forall k, bget k m1 = bget k m2) -> m1 = m2.
  Proof.
    induction m1 as [|[k1 v1] m1 IH]; intros [|[k2 v2] m2] Hs1 Hs2 Hext; auto.
    - specialize (Hext k2). cbn in Hext. rewrite keqb_refl in Hext. discriminate.
    - specialize (Hext k1). cbn in Hext. rewrite keqb_refl in Hext. discriminate.
    - assert (Hk : k1 = k2).
      { destruct (cmp k1 k2) eqn:E.
        - apply cmp_eq; auto.
        - exfalso. pose proof (Hext k1) as H1. rewrite (bget_head_lt _ _ _ _ Hs2 E) in H1.
          cbn in H1. rewrite keqb_refl in H1. discriminate.
        - exfalso. apply cmp_gt_lt in E. pose proof (Hext k2) as H1.
          rewrite (bget_head_lt _ _ _ _ Hs1 E) in H1.
          cbn in H1. rewrite keqb_refl in H1. discriminate. }
      subst k2.
      assert (Hv : v1 = v2).
      { pose proof (Hext k1) as H1. cbn in H1. rewrite keqb_refl in H1. congruence. }
      subst v2. f_equal. apply IH.
      + apply bsorted_cons_inv in Hs1; tauto.
      + apply bsorted_cons_inv in Hs2; tauto.
      + intros k. pose proof (Hext k) as H1. cbn in H1.
        destruct (keqb_spec k k1) as [Hk|Hk]; [subst k|auto].
        apply bsorted_cons_inv in Hs1. apply bsorted_cons_inv in Hs2.
        destruct Hs1 as [_ Hf1], Hs2 as [_ Hf2]. rewrite Forall_forall in Hf1, Hf2.
        destruct (bget k1 m1) eqn:E1.
        { apply bget_In in E1. apply Hf1 in E1. destruct (klt_irrefl _ E1). }
        destruct (bget k1 m2) eqn:E2; auto.
        apply bget_In in E2. apply Hf2 in E2. destruct (klt_irrefl _ E2).
  Qed.

  Lemma bremove_notin k m : bget k m = None -> bremove k m = m.
  Proof.
    induction m as [|[k1 v1] m IH]; cbn; auto.
    destruct (keqb k k1); [discriminate|]. intros H; f_equal; auto.
  Qed.

  Lemma bremove_insert k v m :
    bsorted m -> bget k m = None -> bremove k (binsert k v m) = m.
  Proof.
    intros Hs Hn. apply bmap_ext; auto.
    - apply bsorted_remove, bsorted_insert; auto.
    - intros k'. rewrite bget_remove, bget_insert.
      destruct (keqb_spec k' k) as [->|]; auto.
  Qed.

  Lemma binsert_remove k v m : bsorted m -> binsert k v (bremove k m) = binsert k v m.
  Proof.
    intros Hs. apply bmap_ext; auto using bsorted_insert, bsorted_remove.
    intros k'. rewrite !bget_insert, bget_remove. destruct (keqb k' k); auto.
  Qed.

  (** Sums over maps *)
  Definition bsum (f : K -> V -> N) (m : bmap V) : N :=
    fold_right (fun kv acc => f (fst kv) (snd kv) + acc) 0 m.

  Lemma bsum_nil f : bsum f [] = 0.
  Proof. reflexivity. Qed.
  Lemma bsum_cons f k v m : bsum f ((k, v) :: m) = f k v + bsum f m.
  Proof. reflexivity. Qed.

  Lemma bsum_insert_new f k v m :
    bget k m = None -> bsum f (binsert k v m) = f k v + bsum f m.
  Proof.
    induction m as [|[k1 v1] m IH]; cbn [bget binsert bremove bkeys map fst snd]; auto.
    destruct (keqb k k1) eqn:Ek; [discriminate|]. intros Hn.
    destruct (cmp k k1) eqn:E.
    - unfold keqb in Ek; rewrite E in Ek; discriminate.
    - rewrite !bsum_cons; auto.
    - rewrite !bsum_cons, IH by auto. lia.
  Qed.

  Lemma bsum_remove f k v m :
    NoDup (bkeys m) -> bget k m = Some v -> bsum f m = f k v + bsum f (bremove k m).
  Proof.
    induction m as [|[k1 v1] m IH]; cbn [bget binsert bremove bkeys map fst snd]; [discriminate|].
    intros Hnd. inversion Hnd as [|? ? Hni Hnd']; subst.
    destruct (keqb_spec k k1) as [->|Hk].
    - injection 1 as ->. rewrite bsum_cons. f_equal.
      assert (bget k1 m = None) as Hn.
      { destruct (bget k1 m) eqn:E; auto. exfalso; apply Hni.
        apply bget_In_keys. rewrite E; discriminate. }
      rewrite bremove_notin; auto.
    - intros Hg. rewrite !bsum_cons, (IH Hnd' Hg). lia.
  Qed.

  Lemma bsum_insert_upd f k v v0 m :
    bsorted m -> bget k m = Some v0 ->
    bsum f (binsert k v m) + f k v0 = f k v + bsum f m.
  Proof.
    intros Hs Hg. rewrite <- (binsert_remove k v m Hs).
    rewrite bsum_insert_new by apply bget_remove_eq.
    rewrite (bsum_remove f k v0 m (bsorted_NoDup _ Hs) Hg). lia.
  Qed.

  Lemma bsum_get_le f k v m : bget k m = Some v -> f k v <= bsum f m.
  Proof.
    induction m as [|[k1 v1] m IH]; cbn [bget binsert bremove bkeys map fst snd]; [discriminate|].
    rewrite ?bsum_cons. destruct (keqb_spec k k1) as [->|Hk].
    - injection 1 as ->. lia.
    - intros Hg. specialize (IH Hg). lia.
  Qed.

  Lemma bsum_ext f g m :
    (forall k v, In (k, v) m -> f k v = g k v) -> bsum f m = bsum g m.
  Proof.
    induction m as [|[k v] m IH]; intros H; auto. rewrite !bsum_cons.
    rewrite IH by (intros; apply H; right; auto). f_equal. apply H; left; auto.
  Qed.

  Lemma binsert_keys_In k v k' m : In k' (bkeys (binsert k v m)) <-> k' = k \/ In k' (bkeys m).
  Proof.
    rewrite <- !bget_In_keys, bget_insert. destruct (keqb_spec k' k) as [->|Hne].
    - split; auto. discriminate.
    - split; [auto|]. intros [->|]; [contradiction|auto].
  Qed.

  Lemma binsert_length_new k v m :
    bget k m = None -> List.length (binsert k v m) = S (List.length m).
  Proof.
    induction m as [|[k1 v1] m IH]; cbn; auto.
    destruct (keqb k k1) eqn:Ek; [discriminate|]. intros Hn.
    destruct (cmp k k1) eqn:E; cbn; auto.
    unfold keqb in Ek; rewrite E in Ek; discriminate.
  Qed.

  Lemma bremove_length k v m :
    NoDup (bkeys m) -> bget k m = Some v -> List.length m = S (List.length (bremove k m)).
  Proof.
    induction m as [|[k1 v1] m IH]; cbn; [discriminate|].
    intros Hnd. inversion Hnd as [|? ? Hni Hnd']; subst.
    destruct (keqb_spec k k1) as [->|Hk].
    - injection 1 as ->. assert (bget k1 m = None) as Hn.
      { destruct (bget k1 m) eqn:E; auto. exfalso; apply Hni.
        apply bget_In_keys. rewrite E; discriminate. }
      rewrite bremove_notin; auto.
    - intros Hg. cbn. f_equal; auto.
  Qed.

  End V.
End BMap.

Arguments bmap K V : clear implicits.
Arguments bset K : clear implicits.
#[global] Opaque bsum.
