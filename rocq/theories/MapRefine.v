(** * MapRefine: the two-map structure refines the table (proofs only). *)

From Verif Require Import Base BMap MultiKeyMap MultiKeyMapFacts MapSpec.

Section SortFacts.
  Context {T X : Type} `{OrdX : Ord X} (f : T -> X).
  Definition fsorted (l : list T) : Prop := StronglySorted (fun a b => klt (f a) (f b)) l.

  Lemma sort_insert_In r l x : In x (sort_insert f r l) <-> x = r \/ In x l.
  Proof.
    induction l as [|y l IH]; cbn [sort_insert In].
    - intuition congruence.
    - destruct (cmp (f r) (f y)); cbn [In]; try rewrite IH; intuition congruence.
  Qed.
  Lemma sort_by_In l x : In x (sort_by f l) <-> In x l.
  Proof.
    induction l as [|y l IH]; cbn [sort_by fold_right]; [tauto|].
    change (fold_right (sort_insert f) [] l) with (sort_by f l).
    rewrite sort_insert_In, IH. cbn [In]. intuition congruence.
  Qed.
  Lemma sort_insert_sorted r l :
    fsorted l -> ~ In (f r) (map f l) -> fsorted (sort_insert f r l).
  Proof.
    unfold fsorted. induction l as [|y l IH]; cbn [sort_insert]; intros Hs Hn.
    - constructor; constructor.
    - inversion Hs as [|? ? Hs' Hf]; subst. destruct (cmp (f r) (f y)) eqn:E.
      + apply cmp_eq in E. destruct Hn. rewrite E. left; auto.
      + constructor; auto. constructor; auto. rewrite Forall_forall in *.
        intros x Hx. eapply cmp_trans; [exact E|]. apply Hf; auto.
      + constructor.
        * apply IH; auto. intros C; apply Hn; right; auto.
        * rewrite Forall_forall in *. intros x Hx. apply sort_insert_In in Hx.
          destruct Hx as [->|Hx]; auto.
          unfold klt. rewrite cmp_antisym, E. reflexivity.
  Qed.
  Lemma sort_by_sorted l : NoDup (map f l) -> fsorted (sort_by f l).
  Proof.
    induction l as [|y l IH]; cbn [sort_by fold_right map]; intros Hn; [constructor|].
    inversion Hn; subst. apply sort_insert_sorted; [apply IH; auto|].
    intros C. apply in_map_iff in C. destruct C as (x & Hx & C).
    apply (sort_by_In l x) in C. apply H1. rewrite <- Hx. apply in_map; auto.
  Qed.
  Lemma fsorted_ext l1 : forall l2,
    fsorted l1 -> fsorted l2 -> (forall x, In x l1 <-> In x l2) -> l1 = l2.
  Proof.
    unfold fsorted. induction l1 as [|x l1 IH]; intros [|y l2] Hs1 Hs2 Hin; auto.
    - exfalso. apply (Hin y). left; auto.
    - exfalso. apply (Hin x). left; auto.
    - inversion Hs1 as [|? ? Hs1' Hf1]; subst. inversion Hs2 as [|? ? Hs2' Hf2]; subst.
      rewrite Forall_forall in Hf1, Hf2.
      assert (Hirr : forall a, ~ klt (f a) (f a)) by (intros a; apply klt_irrefl).
      assert (Hxy : x = y).
      { destruct (proj1 (Hin x)) as [|Hx]; [left; auto|auto|].
        destruct (proj2 (Hin y)) as [|Hy]; [left; auto|auto|].
        exfalso. apply (Hirr x). eapply cmp_trans; [apply Hf1; exact Hy|apply Hf2; exact Hx]. }
      subst y. f_equal. apply IH; auto. intros z. specialize (Hin z). cbn [In] in Hin.
      split; intros Hz.
      + destruct (proj1 Hin) as [->|]; auto. destruct (Hirr z); auto.
      + destruct (proj2 Hin) as [->|]; auto. destruct (Hirr z); auto.
  Qed.
End SortFacts.

Section Refine.
  Context {K A V : Type} `{OrdK : Ord K} `{OrdA : Ord A}.
  Implicit Types (m : mkm K A V) (t : table K A V).

  Record rel m t : Prop := {
    rel_wf : mkm_wf m;
    rel_rows : forall k a v, row m k a v <-> In (k, a, v) t;
    rel_keys : NoDup (map row_key t);
    rel_alts : NoDup (map row_alt t)
  }.

  Lemma rel_new : rel mkm_new [].
  Proof.
    constructor; try (cbn; constructor); try apply mkm_wf_new.
    - intros [H _]; discriminate.
    - intros [].
  Qed.

  Lemma find_key_iff t k r :
    NoDup (map row_key t) ->
    (with_key k t = Some r <-> In r t /\ row_key r = k).
  Proof.
    unfold with_key. induction t as [|x t IH]; cbn [find map In]; intros Hn.
    - split; [discriminate|tauto].
    - inversion Hn; subst. destruct (keqb (row_key x) k) eqn:E.
      + apply keqb_eq in E. split.
        * injection 1 as <-. auto.
        * intros [[->|Hin] Hk]; auto. exfalso. apply H1. rewrite E, <- Hk. apply in_map; auto.
      + apply keqb_neq in E. rewrite IH by auto. intuition congruence.
  Qed.
  Lemma find_alt_iff t a r :
    NoDup (map row_alt t) ->
    (with_alt a t = Some r <-> In r t /\ row_alt r = a).
  Proof.
    unfold with_alt. induction t as [|x t IH]; cbn [find map In]; intros Hn.
    - split; [discriminate|tauto].
    - inversion Hn; subst. destruct (keqb (row_alt x) a) eqn:E.
      + apply keqb_eq in E. split.
        * injection 1 as <-. auto.
        * intros [[->|Hin] Hk]; auto. exfalso. apply H1. rewrite E, <- Hk. apply in_map; auto.
      + apply keqb_neq in E. rewrite IH by auto. intuition congruence.
  Qed.

  Lemma rel_with_key m t k a v :
    rel m t -> row m k a v -> with_key k t = Some (k, a, v).
  Proof.
    intros HR Hr. apply find_key_iff; [apply HR|]. split; [apply HR; auto|reflexivity].
  Qed.
  Lemma rel_with_key_none m t k :
    rel m t -> bget k (by_key m) = None -> with_key k t = None.
  Proof.
    intros HR Hk. destruct (with_key k t) as [[[k' a] v]|] eqn:E; auto.
    apply find_key_iff in E; [|apply HR]. destruct E as [Hin Hk']. cbn in Hk'; subst k'.
    apply (rel_rows _ _ HR) in Hin. destruct Hin; congruence.
  Qed.
  Lemma rel_with_alt m t k a v :
    rel m t -> row m k a v -> with_alt a t = Some (k, a, v).
  Proof.
    intros HR Hr. apply find_alt_iff; [apply HR|]. split; [apply HR; auto|reflexivity].
  Qed.
  Lemma rel_with_alt_none m t a :
    rel m t -> bget a (by_alt m) = None -> with_alt a t = None.
  Proof.
    intros HR Hk. destruct (with_alt a t) as [[[k' a'] v]|] eqn:E; auto.
    apply find_alt_iff in E; [|apply HR]. destruct E as [Hin Hk']. cbn in Hk'; subst a'.
    apply (rel_rows _ _ HR) in Hin. destruct Hin; congruence.
  Qed.

  Lemma rel_cases_key m t k :
    rel m t ->
    (exists a v, row m k a v /\ with_key k t = Some (k, a, v)) \/
    (bget k (by_key m) = None /\ with_key k t = None).
  Proof.
    intros HR. destruct (bget k (by_key m)) as [a|] eqn:E.
    - left. destruct (get_key_row m k a (rel_wf _ _ HR) E) as (v & Hr).
      exists a, v. split; auto. eapply rel_with_key; eauto.
    - right. split; auto. eapply rel_with_key_none; eauto.
  Qed.
  Lemma rel_cases_alt m t a :
    rel m t ->
    (exists k v, row m k a v /\ with_alt a t = Some (k, a, v)) \/
    (bget a (by_alt m) = None /\ with_alt a t = None).
  Proof.
    intros HR. destruct (bget a (by_alt m)) as [v|] eqn:E.
    - left. destruct (get_alt_row m a v (rel_wf _ _ HR) E) as (k & Hr).
      exists k, v. split; auto. eapply rel_with_alt; eauto.
    - right. split; auto. eapply rel_with_alt_none; eauto.
  Qed.

  Lemma NoDup_map_filter {B C} (g : B -> C) (p : B -> bool) l :
    NoDup (map g l) -> NoDup (map g (filter p l)).
  Proof.
    induction l as [|x l IH]; cbn [map filter]; auto. intros H; inversion H; subst.
    destruct (p x); auto. cbn [map]. constructor; auto. intros C0; apply H2.
    apply in_map_iff in C0. destruct C0 as (y & <- & Hy). apply filter_In in Hy.
    apply in_map; tauto.
  Qed.

  Lemma rel_insert m t k a v :
    rel m t -> bget a (by_alt m) = None -> bget k (by_key m) = None ->
    rel (Mkm (binsert a v (by_alt m)) (binsert k a (by_key m))) ((k, a, v) :: t).
  Proof.
    intros HR Ha Hk. constructor.
    - apply mkm_wf_insert; auto; apply HR.
    - intros k' a' v'. rewrite row_insert; auto; [|apply HR]. cbn [In].
      rewrite (rel_rows _ _ HR). intuition congruence.
    - cbn [map]. constructor; [|apply HR]. intros C. apply in_map_iff in C.
      destruct C as ([[k1 a1] v1] & Hk1 & C). cbn in Hk1; subst k1.
      apply (rel_rows _ _ HR) in C. destruct C; congruence.
    - cbn [map]. constructor; [|apply HR]. intros C. apply in_map_iff in C.
      destruct C as ([[k1 a1] v1] & Hk1 & C). cbn in Hk1; subst a1.
      apply (rel_rows _ _ HR) in C. destruct C; congruence.
  Qed.

  Lemma rel_remove m t k a v :
    rel m t -> row m k a v ->
    rel (Mkm (bremove a (by_alt m)) (bremove k (by_key m)))
        (filter (fun r => negb (keqb (row_key r) k)) t).
  Proof.
    intros HR Hr. constructor; try (apply NoDup_map_filter; apply HR).
    - apply mkm_wf_remove; [apply HR|]. apply Hr.
    - intros k' a' v'. rewrite (row_remove m k a v) by (auto; apply HR).
      rewrite filter_In, (rel_rows _ _ HR). cbn. rewrite negb_true_iff, keqb_neq. tauto.
  Qed.

  Lemma rel_update m t k a v (f : V -> V) :
    rel m t -> row m k a v ->
    rel (Mkm (binsert a (f v) (by_alt m)) (by_key m))
        (map (fun r => if keqb (row_key r) k then (row_key r, row_alt r, f (row_val r)) else r) t).
  Proof.
    intros HR Hr. constructor.
    - apply mkm_wf_update; [apply HR|]. exists v. apply Hr.
    - intros k' a' v'. rewrite row_update by (exists v; apply Hr).
      rewrite in_map_iff. split.
      + intros [Hk' Hv']. destruct (keqb_spec a' a) as [He|He]; [subst a'|].
        * assert (k' = k) by (eapply wf_inj; [apply HR|exact Hk'|apply Hr]). subst k'.
          exists (k, a, v). cbn. rewrite keqb_refl. split.
          { f_equal. destruct Hv' as [[_ ->]|[C _]]; [auto|congruence]. }
          apply HR; auto.
        * exists (k', a', v'). cbn. split.
          { destruct (keqb_spec k' k) as [Hkk|]; auto. subst k'. destruct Hr. congruence. }
          apply HR. split; auto. destruct Hv' as [[C _]|[_ Hv']]; [congruence|auto].
      + intros ([[k1 a1] v1] & Heq & Hin). apply (rel_rows _ _ HR) in Hin. cbn in Heq.
        destruct Hin as [H1 H2].
        destruct (keqb_spec k1 k) as [He|He].
        * injection Heq as <- <- <-. subst k1. split; auto.
          destruct Hr as [H3 H4]. assert (a1 = a) by congruence. subst a1.
          left. split; auto. congruence.
        * injection Heq as <- <- <-. split; auto. right. split; auto.
          intros ->. apply He. eapply wf_inj; [apply HR|exact H1|apply Hr].
    - rewrite map_map. erewrite map_ext; [apply (rel_keys _ _ HR)|].
      intros [[k1 a1] v1]; cbn. destruct (keqb k1 k); reflexivity.
    - rewrite map_map. erewrite map_ext; [apply (rel_alts _ _ HR)|].
      intros [[k1 a1] v1]; cbn. destruct (keqb k1 k); reflexivity.
  Qed.

  Lemma rel_iter m t : rel m t -> mkm_iter m = Done (sort_by row_key t).
  Proof.
    intros HR. destruct (mkm_iter_done m (rel_wf _ _ HR)) as (l & Hl & Hm & Hin).
    rewrite Hl. f_equal. apply (fsorted_ext (@row_key K A V)).
    - pose proof (wf_sorted_key _ (rel_wf _ _ HR)) as Hs. rewrite <- Hm in Hs.
      unfold fsorted. clear - Hs. unfold bsorted in Hs.
      induction l as [|x l IH]; cbn [map] in Hs; [constructor|].
      inversion Hs as [|? ? Hs' Hf]; subst. constructor; [apply IH; auto|].
      rewrite Forall_forall in *. intros y Hy. apply Hf. apply in_map; auto.
    - apply sort_by_sorted. apply HR.
    - intros [[k a] v]. rewrite Hin, sort_by_In. apply HR.
  Qed.

  Lemma rel_alt_keys m t : rel m t -> mkm_alt_keys m = map row_alt (sort_by row_alt t).
  Proof.
    intros HR. unfold mkm_alt_keys.
    apply (fsorted_ext (fun a : A => a)).
    - pose proof (wf_sorted_alt _ (rel_wf _ _ HR)) as Hs. unfold fsorted, bsorted, bkeys in *.
      induction (by_alt m) as [|x l IH]; cbn [map]; [constructor|].
      inversion Hs as [|? ? Hs' Hf]; subst. constructor; [apply IH; auto|].
      rewrite Forall_forall in *. intros y Hy. apply in_map_iff in Hy.
      destruct Hy as (z & <- & Hz). apply Hf; auto.
    - pose proof (sort_by_sorted row_alt t (rel_alts _ _ HR)) as Hs. unfold fsorted in *.
      induction (sort_by row_alt t) as [|x l IH]; cbn [map]; [constructor|].
      inversion Hs as [|? ? Hs' Hf]; subst. constructor; [apply IH; auto|].
      rewrite Forall_forall in *. intros y Hy. apply in_map_iff in Hy.
      destruct Hy as (z & <- & Hz). apply Hf; auto.
    - intros a. unfold bkeys. split.
      + intros Hin. apply in_map_iff in Hin. destruct Hin as ([a' v] & <- & Hin). cbn [fst].
        apply (bget_iff_In a' v _ (wf_sorted_alt _ (rel_wf _ _ HR))) in Hin.
        destruct (get_alt_row _ _ _ (rel_wf _ _ HR) Hin) as (k & Hr).
        apply in_map_iff. exists (k, a', v). split; auto. apply sort_by_In. apply HR; auto.
      + intros Hin. apply in_map_iff in Hin. destruct Hin as ([[k a'] v] & <- & Hin).
        apply sort_by_In in Hin. apply (rel_rows _ _ HR) in Hin. destruct Hin as [_ Hv].
        apply bget_In in Hv. change (row_alt (k, a', v)) with (fst (a', v)). apply in_map; auto.
  Qed.

  Lemma filter_filter {B} (p q : B -> bool) l :
    filter p (filter q l) = filter (fun x => q x && p x) l.
  Proof.
    induction l as [|x l IH]; cbn [filter]; auto.
    destruct (q x) eqn:E; cbn [filter andb]; [destruct (p x)|]; rewrite IH; auto.
  Qed.

  Definition inb (ks : list K) (k : K) : bool := existsb (fun x => keqb k x) ks.
  Lemma inb_In ks k : inb ks k = true <-> In k ks.
  Proof.
    unfold inb. rewrite existsb_exists. split.
    - intros (x & Hx & E). apply keqb_eq in E; subst; auto.
    - intros H; exists k; split; auto. apply keqb_refl.
  Qed.

  Lemma drain_fold ks : forall m t out0,
    rel m t -> NoDup ks -> (forall k, In k ks -> exists a v, row m k a v) ->
    exists m' l,
      rfold (fun st k =>
         let '(m, out) := st in
         a <- expect (bget k (by_key m)) "BUG: missing primary key" ;;
         v <- expect (bget a (by_alt m)) "BUG: missing foreign key" ;;
         Done (Mkm (bremove a (by_alt m)) (bremove k (by_key m)), out ++ [(k, a, v)]))
      (m, out0) ks = Done (m', out0 ++ l) /\
      rel m' (filter (fun r => negb (inb ks (row_key r))) t) /\
      map row_key l = ks /\
      (forall r, In r l <-> In r t /\ In (row_key r) ks).
  Proof.
    induction ks as [|k ks IH]; intros m t out0 HR Hn Hks.
    - exists m, []. cbn [rfold]. rewrite app_nil_r. split; auto. split.
      { erewrite filter_ext; [|intros; cbn; reflexivity].
        replace (filter (fun _ : trow K A V => true) t) with t; auto.
        clear. induction t; cbn; congruence. }
      split; auto. cbn. tauto.
    - cbn [rfold]. inversion Hn; subst.
      destruct (Hks k) as (a & v & Hr); [left; auto|].
      pose proof Hr as [H3 H4]. rewrite H3. cbn [expect rbind]. rewrite H4. cbn [expect rbind].
      pose proof (rel_remove m t k a v HR Hr) as HR'.
      destruct (IH _ _ (out0 ++ [(k, a, v)]) HR') as (m' & l & Hrun & HR'' & Hmap & Hin); auto.
      { intros k' Hk'. destruct (Hks k') as (a' & v' & Hr'); [right; auto|].
        exists a', v'. apply (row_remove m k a v); auto; [apply HR|].
        split; auto. intros ->. contradiction. }
      exists m', ((k, a, v) :: l). split.
      { rewrite Hrun. rewrite <- app_assoc. reflexivity. }
      split.
      { rewrite filter_filter in HR''. erewrite filter_ext; [exact HR''|].
        intros [[k1 a1] v1]. cbn. destruct (keqb k1 k); reflexivity. }
      split; [cbn [map]; rewrite Hmap; reflexivity|].
      intros [[k1 a1] v1]. cbn [In]. rewrite Hin, filter_In. cbn.
      rewrite negb_true_iff, keqb_neq. split.
      + intros [Heq|((Hin1 & Hk1) & Hk2)].
        * injection Heq as <- <- <-. split; auto. apply HR; auto.
        * auto.
      + intros [Hin1 [Hk|Hk]].
        * subst k1. left. apply (rel_rows _ _ HR) in Hin1.
          destruct (row_fun_key _ _ _ _ _ _ Hr Hin1) as [-> ->]. reflexivity.
        * right. split; auto. split; auto. intros ->. contradiction.
  Qed.

  Lemma rel_drain m t (p : K -> bool) :
    rel m t ->
    exists m', mkm_drain p m = Done (m', sort_by row_key (filter (fun r => p (row_key r)) t)) /\
      rel m' (filter (fun r => negb (p (row_key r))) t).
  Proof.
    intros HR. unfold mkm_drain.
    assert (Hs : StronglySorted klt (mkm_keys m)).
    { unfold mkm_keys, bkeys. pose proof (wf_sorted_key _ (rel_wf _ _ HR)) as Hs.
      unfold bsorted in Hs. induction (by_key m) as [|x l IH]; cbn [map]; [constructor|].
      inversion Hs as [|? ? Hs' Hf]; subst. constructor; [apply IH; auto|].
      rewrite Forall_forall in *. intros y Hy. apply in_map_iff in Hy.
      destruct Hy as (z & <- & Hz). apply Hf; auto. }
    assert (Hks : forall k, In k (mkm_keys m) -> exists a v, row m k a v).
    { intros k Hk. unfold mkm_keys, bkeys in Hk. apply in_map_iff in Hk.
      destruct Hk as ([k' a] & <- & Hk). cbn [fst].
      apply (bget_iff_In k' a _ (wf_sorted_key _ (rel_wf _ _ HR))) in Hk.
      destruct (get_key_row _ _ _ (rel_wf _ _ HR) Hk) as (v & Hr). eauto. }
    assert (Hnd : NoDup (mkm_keys m)).
    { unfold mkm_keys. apply bsorted_NoDup, (wf_sorted_key _ (rel_wf _ _ HR)). }
    assert (Hkeys : forall r, In r t -> In (row_key r) (mkm_keys m)).
    { intros [[k a] v] Hin. apply (rel_rows _ _ HR) in Hin. destruct Hin as [Hk _].
      unfold mkm_keys, bkeys. change (row_key (k, a, v)) with (fst (k, a)).
      apply in_map. apply bget_In; auto. }
    destruct (drain_fold (filter p (mkm_keys m)) m t [] HR) as (m' & l & Hrun & HR' & Hmap & Hin).
    { apply NoDup_filter; auto. }
    { intros k Hk. apply filter_In in Hk. apply Hks; tauto. }
    exists m'. split.
    - rewrite Hrun. cbn [app]. do 2 f_equal. apply (fsorted_ext (@row_key K A V)).
      + assert (Hs2 : StronglySorted klt (map row_key l)).
        { rewrite Hmap. clear - Hs. induction Hs as [|x l0 Hs' IH Hf]; cbn [filter]; [constructor|].
          destruct (p x); auto. constructor; auto. rewrite Forall_forall in *.
          intros y Hy. apply filter_In in Hy. apply Hf; tauto. }
        unfold fsorted. clear - Hs2. induction l as [|x l IH]; cbn [map] in Hs2; [constructor|].
        inversion Hs2 as [|? ? Hs' Hf]; subst. constructor; [apply IH; auto|].
        rewrite Forall_forall in *. intros y Hy. apply Hf. apply in_map; auto.
      + apply sort_by_sorted, NoDup_map_filter, HR.
      + intros r. rewrite Hin, sort_by_In, !filter_In. split.
        * tauto.
        * intros [H1 H2]. split; auto.
    - erewrite filter_ext_in; [exact HR'|]. intros r Hr.
      destruct (inb (filter p (mkm_keys m)) (row_key r)) eqn:E.
      + rewrite E. apply inb_In, filter_In in E. destruct E as [_ E]; rewrite E; auto.
      + rewrite E. destruct (p (row_key r)) eqn:E2; auto. exfalso.
        assert (inb (filter p (mkm_keys m)) (row_key r) = true); [|congruence].
        apply inb_In, filter_In. auto.
  Qed.

  Lemma rel_empty m t : rel m t ->
    mkm_is_empty m = match t with [] => true | _ => false end.
  Proof.
    intros HR. unfold mkm_is_empty. destruct (by_key m) as [|[k a] l] eqn:E; destruct t as [|[[k' a'] v] t']; auto.
    - assert (Hin : row m k' a' v) by (apply HR; left; auto).
      destruct Hin as [Hk _]. rewrite E in Hk. discriminate.
    - assert (Hk : bget k (by_key m) = Some a).
      { rewrite E. cbn. rewrite keqb_refl; auto. }
      destruct (get_key_row _ _ _ (rel_wf _ _ HR) Hk) as (v & Hr).
      apply (rel_rows _ _ HR) in Hr. destruct Hr.
  Qed.

  Lemma map_noop k (f : V -> V) t :
    with_key k t = None ->
    map (fun r => if keqb (row_key r) k then (row_key r, row_alt r, f (row_val r)) else r) t = t.
  Proof.
    unfold with_key. induction t as [|x t IH]; cbn [find map]; auto.
    destruct (keqb (row_key x) k); [discriminate|]. intros H; rewrite IH; auto.
  Qed.
  Lemma filter_noop k t :
    with_key k t = None -> filter (fun r => negb (keqb (row_key r) k)) t = t.
  Proof.
    unfold with_key. induction t as [|x t IH]; cbn [find filter]; auto.
    destruct (keqb (row_key x) k); [discriminate|]. intros H; cbn [negb]; rewrite IH; auto.
  Qed.

  Lemma mkm_step_refines m t o :
    rel m t ->
    exists m', mkm_step m o = Done (m', snd (table_step t o)) /\ rel m' (fst (table_step t o)).
  Proof.
    intros HR. destruct o as [k a v|k|k|a|k|a| |k f|k|p| | |]; cbn [mkm_step table_step].
    - unfold mkm_try_insert.
      destruct (rel_cases_alt m t a HR) as [(k1 & v1 & [H1 H2] & H3)|[H2 H3]].
      + unfold bmem. rewrite H2, H3. cbn [is_some rbind fst snd]. eauto.
      + unfold bmem. rewrite H2, H3. cbn [is_some rbind].
        destruct (rel_cases_key m t k HR) as [(a1 & v1 & [H4 H5] & H6)|[H4 H6]].
        * rewrite H4, H6. cbn [is_some rbind fst snd]. eauto.
        * rewrite H4, H6. cbn [is_some negb rassert rbind fst snd].
          eexists; split; [reflexivity|]. apply rel_insert; auto.
    - exists m. cbn [fst snd]. split; auto. do 3 f_equal. unfold mkm_get.
      destruct (rel_cases_key m t k HR) as [(a1 & v1 & [H4 H5] & H6)|[H4 H6]]; rewrite H4, H6; cbn; auto.
    - exists m. cbn [fst snd]. split; auto. do 3 f_equal. unfold mkm_get_entry.
      destruct (rel_cases_key m t k HR) as [(a1 & v1 & [H4 H5] & H6)|[H4 H6]]; rewrite H4, H6; cbn; auto.
      rewrite H5; auto.
    - exists m. cbn [fst snd]. split; auto. do 3 f_equal. unfold mkm_get_alt.
      destruct (rel_cases_alt m t a HR) as [(a1 & v1 & [H4 H5] & H6)|[H4 H6]].
      + rewrite H5, H6; auto.
      + rewrite H4, H6; auto.
    - exists m. cbn [fst snd]. split; auto. do 3 f_equal. unfold mkm_contains, bmem.
      destruct (rel_cases_key m t k HR) as [(a1 & v1 & [H4 H5] & H6)|[H4 H6]]; rewrite H4, H6; cbn; auto.
    - exists m. cbn [fst snd]. split; auto. do 3 f_equal. unfold mkm_contains_alt, bmem.
      destruct (rel_cases_alt m t a HR) as [(a1 & v1 & [H4 H5] & H6)|[H4 H6]].
      + rewrite H5, H6; auto.
      + rewrite H4, H6; auto.
    - exists m. cbn [fst snd]. split; auto. do 3 f_equal. apply rel_empty; auto.
    - destruct (rel_cases_key m t k HR) as [(a1 & v1 & Hr & H6)|[H4 H6]].
      + unfold mkm_modify. pose proof Hr as [H4 H5]. rewrite H4, H6. cbn [obind]. rewrite H5.
        cbn [is_some fst snd]. eexists; split; [reflexivity|]. apply rel_update; auto.
      + unfold mkm_modify. rewrite H4, H6. cbn [obind is_some fst snd].
        eexists; split; [reflexivity|]. rewrite map_noop; auto.
    - destruct (rel_cases_key m t k HR) as [(a1 & v1 & Hr & H6)|[H4 H6]].
      + rewrite (mkm_remove_present _ _ _ _ Hr), H6. cbn [rbind fst snd].
        eexists; split; [reflexivity|]. eapply rel_remove; eauto.
      + rewrite (mkm_remove_absent _ _ H4), H6. cbn [rbind fst snd].
        eexists; split; [reflexivity|]. rewrite filter_noop; auto.
    - destruct (rel_drain m t p HR) as (m' & Hd & HR'). rewrite Hd. cbn [rbind fst snd]. eauto.
    - rewrite (rel_iter m t HR). cbn [rbind fst snd]. eauto.
    - exists m. cbn [fst snd]. split; auto. do 3 f_equal.
      symmetry. apply (mkm_iter_keys m (sort_by row_key t) (rel_wf _ _ HR)). apply rel_iter; auto.
    - exists m. cbn [fst snd]. split; auto. do 3 f_equal. apply rel_alt_keys; auto.
  Qed.

  Lemma mkm_run_refines ops : forall m t,
    rel m t -> mkm_run m ops = Done (table_run t ops).
  Proof.
    induction ops as [|o ops IH]; intros m t HR; cbn [mkm_run table_run]; auto.
    destruct (mkm_step_refines m t o HR) as (m' & Hs & HR'). rewrite Hs. cbn [rbind].
    rewrite (IH _ _ HR'). cbn [rbind]. destruct (table_step t o) as [t' r]. reflexivity.
  Qed.
End Refine.

Section DRefine.
  Context {K A V : Type} `{OrdK : Ord K} `{OrdA : Ord A}.
  Implicit Types (m : dmkm K A V) (t : table K A V).

  Definition dup (r : trow K A V) : trow K A (K * V) := (fst r, (row_key r, snd r)).
  Definition drel m t : Prop := rel m (map dup t).

  Lemma with_key_dup k t : with_key k (map dup t) = option_map dup (with_key k t).
  Proof.
    unfold with_key. induction t as [|x t IH]; cbn [find map option_map]; auto.
    change (row_key (dup x)) with (row_key x). destruct (keqb (row_key x) k); auto.
  Qed.
  Lemma with_alt_dup k t : with_alt k (map dup t) = option_map dup (with_alt k t).
  Proof.
    unfold with_alt. induction t as [|x t IH]; cbn [find map option_map]; auto.
    change (row_alt (dup x)) with (row_alt x). destruct (keqb (row_alt x) k); auto.
  Qed.
  Lemma sort_by_dup {X} `{Ord X} (f : trow K A V -> X) (g : trow K A (K * V) -> X) t :
    (forall r, g (dup r) = f r) -> sort_by g (map dup t) = map dup (sort_by f t).
  Proof.
    intros Hfg. induction t as [|x t IH]; cbn [sort_by fold_right map]; auto.
    change (fold_right (sort_insert g) [] (map dup t)) with (sort_by g (map dup t)).
    rewrite IH. change (fold_right (sort_insert f) [] t) with (sort_by f t).
    generalize (sort_by f t) as l. induction l as [|y l IHl]; cbn [sort_insert map]; auto.
    rewrite !Hfg. destruct (cmp (f x) (f y)); cbn [map]; try reflexivity. rewrite IHl; auto.
  Qed.

  Lemma dmkm_step_refines m t o :
    drel m t ->
    exists m', dmkm_step m o = Done (m', snd (dtable_step t o)) /\ drel m' (fst (dtable_step t o)).
  Proof.
    intros HR. destruct o as [k a v|k|a|k|a|a| |]; cbn [dmkm_step dtable_step].
    - destruct (mkm_step_refines m (map dup t) (OInsert k a (k, v)) HR) as (m' & Hs & HR').
      cbn [mkm_step table_step] in *. unfold dmkm_try_insert. rewrite with_key_dup, with_alt_dup in *.
      destruct (mkm_try_insert k a (k, v) m) as [[m1|e]|s]; cbn [rbind] in *; try discriminate;
        destruct (with_alt a t); destruct (with_key k t); cbn [option_map fst snd] in *;
        inversion Hs; subst; try discriminate; eauto;
        repeat match goal with H : RErr _ = RErr _ |- _ => injection H as ?; subst end; eauto.
    - exists m. split; auto. unfold dmkm_get.
      destruct (mkm_step_refines m (map dup t) (OGet k) HR) as (m' & Hs & _).
      cbn [mkm_step table_step fst snd] in *. injection Hs as _ Hs. rewrite Hs, with_key_dup.
      destruct (with_key k t) as [[[? ?] ?]|]; reflexivity.
    - exists m. split; auto. unfold dmkm_get_alt.
      destruct (mkm_step_refines m (map dup t) (OGetAlt a) HR) as (m' & Hs & _).
      cbn [mkm_step table_step fst snd] in *. injection Hs as _ Hs. rewrite Hs, with_alt_dup.
      destruct (with_alt a t) as [[[? ?] ?]|]; reflexivity.
    - exists m. split; auto. unfold dmkm_get_entry.
      destruct (mkm_step_refines m (map dup t) (OGetEntry k) HR) as (m' & Hs & _).
      cbn [mkm_step table_step fst snd] in *. injection Hs as _ Hs. rewrite Hs, with_key_dup.
      destruct (with_key k t) as [[[? ?] ?]|]; reflexivity.
    - exists m. split; auto. unfold dmkm_get_entry_alt.
      destruct (mkm_step_refines m (map dup t) (OGetAlt a) HR) as (m' & Hs & _).
      cbn [mkm_step table_step fst snd] in *. injection Hs as _ Hs. rewrite Hs, with_alt_dup.
      destruct (with_alt a t) as [[[? ?] ?]|]; reflexivity.
    - exists m. split; auto. unfold dmkm_contains_alt.
      destruct (mkm_step_refines m (map dup t) (OContainsAlt a) HR) as (m' & Hs & _).
      cbn [mkm_step table_step fst snd] in *. injection Hs as _ Hs. rewrite Hs, with_alt_dup.
      destruct (with_alt a t) as [[[? ?] ?]|]; reflexivity.
    - exists m. split; auto. unfold dmkm_alt_keys. cbn [table_step snd]. do 3 f_equal.
      rewrite (rel_alt_keys m (map dup t) HR), (sort_by_dup row_alt row_alt t) by reflexivity.
      rewrite map_map. apply map_ext. reflexivity.
    - exists m. split; auto. unfold dmkm_iter. rewrite (rel_iter m (map dup t) HR). cbn [rbind].
      rewrite (sort_by_dup row_key row_key t) by reflexivity. rewrite map_map.
      cbn [table_step snd]. do 3 f_equal. erewrite map_ext; [apply map_id|].
      intros [[? ?] ?]; reflexivity.
  Qed.

  Lemma dmkm_run_refines ops : forall m t,
    drel m t -> dmkm_run m ops = Done (dtable_run t ops).
  Proof.
    induction ops as [|o ops IH]; intros m t HR; cbn [dmkm_run dtable_run]; auto.
    destruct (dmkm_step_refines m t o HR) as (m' & Hs & HR'). rewrite Hs. cbn [rbind].
    rewrite (IH _ _ HR'). cbn [rbind]. destruct (dtable_step t o) as [t' r]. reflexivity.
  Qed.
End DRefine.

Lemma table_keys_unique {K A V : Type} {OrdK : Ord K} {OrdA : Ord A} (ops : list (op K A V)) :
  let t := fold_left (fun t o => fst (table_step t o)) ops [] in
  NoDup (map row_key t) /\ NoDup (map row_alt t).
Proof.
  cbn zeta.
  assert (H : forall m t, rel m t ->
     exists m', rel m' (fold_left (fun t o => fst (table_step t o)) ops t)).
  { induction ops as [|o ops IH]; intros m t HR; cbn [fold_left]; [eauto|].
    destruct (mkm_step_refines m t o HR) as (m' & _ & HR'). eauto. }
  destruct (H mkm_new [] rel_new) as (m' & HR). split; apply HR.
Qed.
