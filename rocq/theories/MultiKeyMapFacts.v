(** * Facts about MultiKeyMap (proofs only). *)

From Verif Require Import Base BMap MultiKeyMap.

Section Facts.
  Context {K A V : Type} `{OrdK : Ord K} `{OrdA : Ord A}.
  Implicit Types m : mkm K A V.

  (** Well-formedness: the two indexes describe one bijective table. *)
  Record mkm_wf (m : mkm K A V) : Prop := {
    wf_sorted_alt : bsorted (by_alt m);
    wf_sorted_key : bsorted (by_key m);
    wf_key_alt : forall k a, bget k (by_key m) = Some a -> exists v, bget a (by_alt m) = Some v;
    wf_alt_key : forall a v, bget a (by_alt m) = Some v -> exists k, bget k (by_key m) = Some a;
    wf_inj : forall k1 k2 a, bget k1 (by_key m) = Some a -> bget k2 (by_key m) = Some a -> k1 = k2
  }.

  Lemma mkm_wf_new : mkm_wf mkm_new.
  Proof.
    constructor; cbn; try constructor; try discriminate; intros; discriminate.
  Qed.

  (** The row [(k, a, v)] is in the table. *)
  Definition row m (k : K) (a : A) (v : V) : Prop :=
    bget k (by_key m) = Some a /\ bget a (by_alt m) = Some v.

  Lemma mkm_try_insert_ok k a v m m' :
    mkm_try_insert k a v m = Done (ROk m') ->
    bget a (by_alt m) = None /\ bget k (by_key m) = None /\
    m' = Mkm (binsert a v (by_alt m)) (binsert k a (by_key m)).
  Proof.
    unfold mkm_try_insert.
    destruct (bmem a (by_alt m)) eqn:Ea; [discriminate|].
    destruct (bmem k (by_key m)) eqn:Ek; [discriminate|].
    cbn. intros H; injection H as <-. apply bmem_false in Ea, Ek. auto.
  Qed.

  Lemma mkm_try_insert_fresh k a v m :
    bget a (by_alt m) = None -> bget k (by_key m) = None ->
    mkm_try_insert k a v m =
    Done (ROk (Mkm (binsert a v (by_alt m)) (binsert k a (by_key m)))).
  Proof.
    intros Ha Hk. unfold mkm_try_insert, bmem. rewrite Ha, Hk. reflexivity.
  Qed.

  Lemma mkm_wf_insert k a v m :
    mkm_wf m -> bget a (by_alt m) = None -> bget k (by_key m) = None ->
    mkm_wf (Mkm (binsert a v (by_alt m)) (binsert k a (by_key m))).
  Proof.
    intros [Hsa Hsk Hka Hak Hinj] Ha Hk. constructor; cbn.
    - apply bsorted_insert; auto.
    - apply bsorted_insert; auto.
    - intros k1 a1. rewrite bget_insert. destruct (keqb_spec k1 k) as [->|Hne].
      + injection 1 as <-. rewrite bget_insert_eq; eauto.
      + intros H. rewrite bget_insert. destruct (keqb_spec a1 a); eauto.
    - intros a1 v1. rewrite bget_insert. destruct (keqb_spec a1 a) as [->|Hne].
      + intros _. exists k. apply bget_insert_eq.
      + intros H. destruct (Hak _ _ H) as (k1 & Hk1). exists k1.
        rewrite bget_insert. destruct (keqb_spec k1 k) as [->|]; auto. congruence.
    - intros k1 k2 a1. rewrite !bget_insert.
      destruct (keqb_spec k1 k) as [->|Hn1], (keqb_spec k2 k) as [->|Hn2]; auto.
      + injection 1 as <-. intros H. destruct (Hka _ _ H) as (v1 & Hv1). congruence.
      + intros H; injection 1 as <-. destruct (Hka _ _ H) as (v1 & Hv1). congruence.
      + eauto.
  Qed.

  Lemma mkm_wf_remove k a m :
    mkm_wf m -> bget k (by_key m) = Some a ->
    mkm_wf (Mkm (bremove a (by_alt m)) (bremove k (by_key m))).
  Proof.
    intros [Hsa Hsk Hka Hak Hinj] Hk. constructor; cbn.
    - apply bsorted_remove; auto.
    - apply bsorted_remove; auto.
    - intros k1 a1. rewrite bget_remove. destruct (keqb_spec k1 k) as [->|Hne]; [discriminate|].
      intros H. destruct (Hka _ _ H) as (v1 & Hv1). exists v1.
      rewrite bget_remove_ne; auto. intros ->. apply Hne. eauto.
    - intros a1 v1. rewrite bget_remove. destruct (keqb_spec a1 a) as [->|Hne]; [discriminate|].
      intros H. destruct (Hak _ _ H) as (k1 & Hk1). exists k1.
      rewrite bget_remove_ne; auto. intros ->. congruence.
    - intros k1 k2 a1. rewrite !bget_remove.
      destruct (keqb k1 k); [discriminate|]. destruct (keqb k2 k); [discriminate|]. eauto.
  Qed.

  Lemma mkm_wf_update a v m :
    mkm_wf m -> (exists v0, bget a (by_alt m) = Some v0) ->
    mkm_wf (Mkm (binsert a v (by_alt m)) (by_key m)).
  Proof.
    intros [Hsa Hsk Hka Hak Hinj] (v0 & Ha). constructor; cbn; auto.
    - apply bsorted_insert; auto.
    - intros k1 a1 H. rewrite bget_insert. destruct (keqb a1 a); eauto.
    - intros a1 v1. rewrite bget_insert. destruct (keqb_spec a1 a) as [->|]; eauto.
  Qed.

  Lemma mkm_modify_some k f m m' :
    mkm_modify k f m = Some m' ->
    exists a v, row m k a v /\ m' = Mkm (binsert a (f v) (by_alt m)) (by_key m).
  Proof.
    unfold mkm_modify, row. destruct (bget k (by_key m)) as [a|] eqn:Ek; cbn; [|discriminate].
    destruct (bget a (by_alt m)) as [v|] eqn:Ea; [|discriminate].
    injection 1 as <-. eauto 10.
  Qed.

  Lemma mkm_modify_none k f m :
    mkm_wf m -> mkm_modify k f m = None -> bget k (by_key m) = None.
  Proof.
    intros Hwf. unfold mkm_modify. destruct (bget k (by_key m)) as [a|] eqn:Ek; cbn; auto.
    destruct (wf_key_alt _ Hwf _ _ Ek) as (v & ->). discriminate.
  Qed.

  Lemma mkm_get_row k v m : mkm_get k m = Some v <-> exists a, row m k a v.
  Proof.
    unfold mkm_get, row. destruct (bget k (by_key m)) as [a|]; cbn.
    - split; [eauto|]. intros (a' & H1 & H2). congruence.
    - split; [discriminate|]. intros (a' & H1 & H2). discriminate.
  Qed.

  Lemma mkm_get_none k m : mkm_wf m -> mkm_get k m = None -> bget k (by_key m) = None.
  Proof.
    intros Hwf. unfold mkm_get. destruct (bget k (by_key m)) as [a|] eqn:Ek; cbn; auto.
    destruct (wf_key_alt _ Hwf _ _ Ek) as (v & ->). discriminate.
  Qed.

  Lemma mkm_get_entry_row k a v m : mkm_get_entry k m = Some (a, v) <-> row m k a v.
  Proof.
    unfold mkm_get_entry, row. destruct (bget k (by_key m)) as [a'|]; cbn.
    - destruct (bget a' (by_alt m)) as [v'|] eqn:E; split; try discriminate.
      + injection 1 as -> ->; auto.
      + intros [H1 H2]. injection H1 as ->. congruence.
      + intros [H1 H2]. injection H1 as ->. congruence.
    - split; [discriminate|]. intros [H _]; discriminate.
  Qed.

  Lemma mkm_remove_some k m m' k' a v :
    mkm_remove_entry k m = Done (m', Some (k', a, v)) ->
    k' = k /\ row m k a v /\ m' = Mkm (bremove a (by_alt m)) (bremove k (by_key m)).
  Proof.
    unfold mkm_remove_entry, row. destruct (bget k (by_key m)) as [a'|]; [|discriminate].
    destruct (bget a' (by_alt m)) eqn:E; cbn; [|discriminate].
    injection 1 as <- -> -> ->. auto.
  Qed.

  Lemma mkm_remove_present k a v m :
    row m k a v ->
    mkm_remove_entry k m =
    Done (Mkm (bremove a (by_alt m)) (bremove k (by_key m)), Some (k, a, v)).
  Proof. intros [Hk Ha]. unfold mkm_remove_entry. rewrite Hk, Ha. reflexivity. Qed.

  Lemma mkm_remove_absent k m :
    bget k (by_key m) = None -> mkm_remove_entry k m = Done (m, None).
  Proof. intros Hk. unfold mkm_remove_entry. rewrite Hk. reflexivity. Qed.

  Lemma mkm_remove_none k m m' :
    mkm_remove_entry k m = Done (m', None) -> bget k (by_key m) = None /\ m' = m.
  Proof.
    unfold mkm_remove_entry. destruct (bget k (by_key m)) as [a'|].
    - destruct (bget a' (by_alt m)); cbn; discriminate.
    - injection 1 as <-; auto.
  Qed.

  (** Iteration *)
  Lemma mkm_iter_from_done (ks : list (K * A)) (alts : bmap A V) :
    (forall k a, In (k, a) ks -> exists v, bget a alts = Some v) ->
    exists l, mkm_iter_from ks alts = Done l /\
      map fst l = ks /\
      (forall k a v, In (k, a, v) l <-> In (k, a) ks /\ bget a alts = Some v).
  Proof.
    induction ks as [|[k a] ks IH]; intros H; cbn.
    - exists []. cbn. repeat split; tauto.
    - destruct IH as (l & Hl & Hm & Hin); [intros; eapply H; right; eauto|].
      destruct (H k a) as (v & Hv); [left; auto|].
      unfold mkm_iter_from in Hl. rewrite Hl, Hv. cbn.
      eexists; split; [reflexivity|]. cbn. rewrite Hm. split; auto.
      intros k1 a1 v1. rewrite Hin. split.
      + intros [Heq|[]]; [injection Heq as <- <- <-|]; auto.
      + intros [[Heq|] Hg]; [injection Heq as <- <-; left; congruence|auto].
  Qed.

  Lemma mkm_iter_done m :
    mkm_wf m ->
    exists l, mkm_iter m = Done l /\
      map fst l = by_key m /\
      (forall k a v, In (k, a, v) l <-> row m k a v).
  Proof.
    intros Hwf. unfold mkm_iter.
    destruct (mkm_iter_from_done (by_key m) (by_alt m)) as (l & Hl & Hm & Hin).
    - intros k a Hin. apply (bget_iff_In k a (by_key m) (wf_sorted_key _ Hwf)) in Hin.
      eapply wf_key_alt; eauto.
    - exists l. split; auto. split; auto. intros k a v. rewrite Hin. unfold row.
      rewrite (bget_iff_In k a (by_key m) (wf_sorted_key _ Hwf)). tauto.
  Qed.

  Lemma mkm_iter_keys m l :
    mkm_wf m -> mkm_iter m = Done l -> map (fun x => fst (fst x)) l = mkm_keys m.
  Proof.
    intros Hwf Hl. destruct (mkm_iter_done m Hwf) as (l' & Hl' & Hm & _).
    rewrite Hl in Hl'; injection Hl' as <-. unfold mkm_keys, bkeys. rewrite <- Hm.
    rewrite map_map; auto.
  Qed.

  Lemma row_fun_key m k a1 v1 a2 v2 : row m k a1 v1 -> row m k a2 v2 -> a1 = a2 /\ v1 = v2.
  Proof. intros [H1 H2] [H3 H4]. rewrite H1 in H3; injection H3 as <-. split; congruence. Qed.

  Lemma row_fun_alt m k1 k2 a v1 v2 :
    mkm_wf m -> row m k1 a v1 -> row m k2 a v2 -> k1 = k2 /\ v1 = v2.
  Proof. intros Hwf [H1 H2] [H3 H4]. split; [eapply wf_inj; eauto|congruence]. Qed.

  Lemma get_alt_row m a v : mkm_wf m -> bget a (by_alt m) = Some v -> exists k, row m k a v.
  Proof.
    intros Hwf Ha. destruct (wf_alt_key _ Hwf _ _ Ha) as (k & Hk). exists k; split; auto.
  Qed.

  Lemma get_key_row m k a : mkm_wf m -> bget k (by_key m) = Some a -> exists v, row m k a v.
  Proof.
    intros Hwf Ha. destruct (wf_key_alt _ Hwf _ _ Ha) as (v & Hk). exists v; split; auto.
  Qed.

  Lemma row_insert m k a v k' a' v' :
    mkm_wf m -> bget a (by_alt m) = None -> bget k (by_key m) = None ->
    (row (Mkm (binsert a v (by_alt m)) (binsert k a (by_key m))) k' a' v' <->
     (k' = k /\ a' = a /\ v' = v) \/ row m k' a' v').
  Proof.
    intros Hwf Ha Hk. unfold row; cbn. rewrite !bget_insert.
    destruct (keqb_spec k' k) as [->|Hn1].
    - split.
      + intros [H1 H2]. injection H1 as <-. rewrite keqb_refl in H2. left; repeat split; congruence.
      + intros [(_ & -> & ->)|[H1 H2]]; [rewrite keqb_refl; auto|congruence].
    - destruct (keqb_spec a' a) as [->|Hn2].
      + split.
        * intros [H1 H2]. destruct (wf_key_alt _ Hwf _ _ H1) as (v1 & Hv1). congruence.
        * intros [(-> & _)|[H1 H2]]; congruence.
      + split; [auto|]. intros [(-> & _)|H]; [congruence|auto].
  Qed.

  Lemma row_remove m k a v k' a' v' :
    mkm_wf m -> row m k a v ->
    (row (Mkm (bremove a (by_alt m)) (bremove k (by_key m))) k' a' v' <->
     k' <> k /\ row m k' a' v').
  Proof.
    intros Hwf [Hk Ha]. unfold row; cbn. rewrite !bget_remove.
    destruct (keqb_spec k' k) as [->|Hn1].
    - split; [intros [H _]; discriminate|tauto].
    - destruct (keqb_spec a' a) as [->|Hn2].
      + split; [intros [_ H]; discriminate|]. intros (_ & H1 & H2).
        exfalso. apply Hn1. eapply wf_inj; eauto.
      + tauto.
  Qed.

  Lemma row_update m a v k' a' v' :
    (exists v0, bget a (by_alt m) = Some v0) ->
    (row (Mkm (binsert a v (by_alt m)) (by_key m)) k' a' v' <->
     bget k' (by_key m) = Some a' /\
     ((a' = a /\ v' = v) \/ (a' <> a /\ bget a' (by_alt m) = Some v'))).
  Proof.
    intros _. unfold row; cbn. rewrite bget_insert.
    destruct (keqb_spec a' a) as [->|Hn].
    - intuition congruence.
    - intuition.
  Qed.
End Facts.
