(** * Proofs about RPC answers (C46, C47, C49). *)

From Verif Require Import Base BMap MultiKeyMap Bytes Types Amount Tx CallData Network Hex
  Transactions State Audit Ranges Rlp Parser Memo Driver Rpc RpcSpec WtInv.

Section Generic.
Context {T : Type}.

Definition values (rs : list (Service * RpcResult T)) : list (Service * T) :=
  flat_map (fun x => match snd x with ROk v => [(fst x, v)] | RErr _ => [] end) rs.
Definition single_rs (rs : list (Service * RpcResult T)) : list (Service * result T SingleCallError) :=
  map (fun x : Service * RpcResult T => (fst x, match snd x with ROk t => ROk t | RErr e => RErr (single_of e) end)) rs.

Lemma ok_single rs : ok_results (single_rs rs) = values rs.
Proof.
  induction rs as [|[p [v|e]] rs IH]; cbn; auto. f_equal. exact IH.
Qed.
Lemma values_in rs p v : In (p, v) (values rs) <-> In (p, ROk v) rs.
Proof.
  unfold values. rewrite in_flat_map. split.
  - intros ([q [x|e]] & Hin & H); cbn in H; [|destruct H]. destruct H as [H|[]]. injection H as <- <-. auto.
  - intros H. exists (p, ROk v). split; auto. left; reflexivity.
Qed.
Lemma values_length rs : List.length (values rs) = values_given (Inconsistent rs).
Proof.
  cbn. induction rs as [|[p [v|e]] rs IH]; cbn; auto.
Qed.
Lemma gave_values rs p (v : T) : gave (Inconsistent rs) p v <-> In (p, v) (values rs).
Proof.
  rewrite values_in. split.
  - intros (rs' & E & H). injection E as <-. auto.
  - intros H. exists rs. auto.
Qed.

Lemma two_ok rs : at_least_two_ok (InconsistentResults rs) =
  if Nat.leb 2 (List.length (ok_results rs)) then ROk (@ok_results T rs) else RErr (InconsistentResults rs).
Proof. unfold at_least_two_ok. destruct (ok_results rs) as [|a [|b l]]; reflexivity. Qed.

Variable eq_dec : forall a b : T, {a = b} + {a <> b}.

Lemma filter_none {A} (f : A -> bool) l : filter f l = [] <-> forall x, In x l -> f x = false.
Proof.
  induction l as [|a l IH]; cbn; [tauto|]. destruct (f a) eqn:E.
  - split; [discriminate|]. intros H. rewrite (H a) in E; [discriminate|auto].
  - rewrite IH. split; [intros H x [<-|Hx]; auto|intros H x Hx; auto].
Qed.

Lemma equality_iff m v : reduce_with_equality eq_dec (from_multi m) = ROk v <-> agreed m v.
Proof.
  unfold agreed. destruct m as [[t|e]|rs].
  - cbn. split.
    + intros H. injection H as ->. auto.
    + intros [H|[H _]]; [injection H as ->; auto|lia].
  - cbn. split; [destruct e; discriminate|]. intros [H|[H _]]; [discriminate|lia].
  - assert (Hn : Inconsistent rs = Consistent (ROk v) <-> False) by (split; [discriminate|tauto]). rewrite Hn. clear Hn.
    cbn [from_multi]. fold (single_rs rs). unfold reduce_with_equality. rewrite two_ok, ok_single.
    rewrite <- values_length. destruct (Nat.leb_spec 2 (List.length (values rs))) as [Hl|Hl].
    2:{ split; [discriminate|]. intros [[]|[H _]]. lia. }
    destruct (values rs) as [|[p0 base] l] eqn:Ev; [cbn in Hl; lia|].
    match goal with |- context [filter ?f ?l] => destruct (filter f l) eqn:Ef; set (F := f) in * end.
    + pose proof (proj1 (filter_none F _) Ef) as Hall. split.
      * intros H. injection H as <-. right. split; auto. intros p x Hg. apply gave_values in Hg. rewrite Ev in Hg.
        apply Hall in Hg. unfold F in Hg. cbn in Hg. destruct (eq_dec base x); congruence.
      * intros [[]|[_ H]]. f_equal. apply (H p0). apply gave_values. rewrite Ev. left; auto.
    + split; [discriminate|]. intros [[]|[_ H]]. exfalso.
      assert (Hin : In p (filter F ((p0, base) :: l))) by (rewrite Ef; left; auto).
      apply filter_In in Hin as [Hin HF]. destruct p as [p x]. unfold F in HF. cbn [snd] in HF.
      destruct (eq_dec base x) as [|Hne]; [discriminate|]. apply Hne.
      transitivity v; [|symmetry].
      * apply (H p0). apply gave_values. rewrite Ev. left; auto.
      * apply (H p). apply gave_values. rewrite Ev. exact Hin.
Qed.

(** When the answers agree on nothing the result is the error made of the answers *)
Lemma equality_cases m : (exists v, reduce_with_equality eq_dec (from_multi m) = ROk v /\ agreed m v) \/
  (exists e, reduce_with_equality eq_dec (from_multi m) = RErr e /\ from_multi m = RErr e /\ forall v, ~ agreed m v).
Proof.
  destruct (reduce_with_equality eq_dec (from_multi m)) as [v|e] eqn:E.
  - left. exists v. split; auto. apply equality_iff. exact E.
  - right. exists e. split; auto. split.
    + unfold reduce_with_equality in E. destruct (from_multi m) as [|e0]; [discriminate|].
      destruct e0; cbn in E; try (injection E as <-; reflexivity).
      destruct (ok_results rs) as [|[p x] [|y l]]; try (injection E as <-; reflexivity).
      match goal with H : context [filter ?f ?l] |- _ => destruct (filter f l) end; [discriminate|injection E as <-; reflexivity].
    + intros v Hv. apply equality_iff in Hv. congruence.
Qed.
End Generic.

(** ** Conversions *)

Lemma map_error {T U} (op : T -> res (result U text)) e u : map_reduce op (RErr e) <> Done (ROk u).
Proof.
  destruct e; cbn; try discriminate. destruct (rmap _ rs); discriminate.
Qed.
Lemma map_equality_iff {T U} (d : forall a b : T, {a = b} + {a <> b}) (op : T -> res (result U text)) m u :
  map_reduce op (reduce_with_equality d (from_multi m)) = Done (ROk u) <->
  exists v, agreed m v /\ op v = Done (ROk u).
Proof.
  destruct (equality_cases d m) as [(v & -> & Hv)|(e & E & _ & Hno)].
  - cbn. split.
    + intros H. apply rbind_done in H as (x & Hx & H). destruct x; [|discriminate]. injection H as <-. eauto.
    + intros (v' & Hv' & Hop). assert (v' = v) as ->.
      { apply (equality_iff d) in Hv, Hv'. congruence. }
      rewrite Hop. reflexivity.
  - rewrite E. split.
    + intros H. destruct (map_error _ _ _ H).
    + intros (v & Hv & _). destruct (Hno v Hv).
Qed.

Lemma rmap_total {A B} (f : A -> res B) l : (forall x, In x l -> exists y, f x = Done y) -> exists ys, rmap f l = Done ys.
Proof.
  induction l as [|a l IH]; intros H; cbn; eauto. destruct (H a) as (y & ->); [left; auto|].
  destruct IH as (ys & ->); [intros; apply H; right; auto|]. cbn. eauto.
Qed.
Lemma rmap_panic {A B} (f : A -> res B) l : (forall ys, rmap f l <> Done ys) <-> exists x, In x l /\ forall y, f x <> Done y.
Proof.
  induction l as [|a l IH]; cbn.
  - split; [intros H; destruct (H [] eq_refl)|intros (x & [] & _)].
  - destruct (f a) as [y|w] eqn:Ea; cbn.
    + split.
      * intros H. destruct (proj1 IH) as (x & Hx & Hy); [|exists x; auto]. intros ys E. apply (H (y :: ys)). rewrite E. reflexivity.
      * intros (x & [<-|Hx] & Hy) ys E; [destruct (Hy y Ea)|]. apply rbind_done in E as (zs & Hz & _).
        apply (proj2 IH (ex_intro _ x (conj Hx Hy)) zs Hz).
    + split; [|discriminate]. intros _. exists a. split; auto. intros y. congruence.
Qed.
Lemma map_total {T U} (op : T -> res (result U text)) r : (forall v, exists y, op v = Done y) -> exists x, map_reduce op r = Done x.
Proof.
  intros H. destruct r as [v|[| | |rs]]; cbn; eauto.
  - destruct (H v) as (y & ->). cbn. eauto.
  - match goal with |- context [rmap ?f rs] => destruct (rmap_total f rs) as (ys & E) end.
    + intros [p [v|e]] _; cbn; eauto. destruct (H v) as (y & ->). cbn. eauto.
    + rewrite E. cbn. eauto.
Qed.

(** *** Blocks *)
Lemma get_block_iff m b : get_block m = Done (ROk b) <-> exists e, agreed m e /\ block_is e b.
Proof.
  unfold get_block. rewrite map_equality_iff. split; intros (e & Ha & H); exists e; split; auto.
  - unfold map_block in H. apply rbind_done in H as (f & Hf & H). injection H as <-. apply expect_done in Hf. split; auto.
  - destruct H as [H1 H2]. unfold map_block. rewrite H2. cbn. destruct b; cbn in *. subst. reflexivity.
Qed.
Lemma map_block_panics e : (forall y, map_block e <> Done y) <-> eb_base_fee_per_gas e = None.
Proof.
  unfold map_block. destruct (eb_base_fee_per_gas e) as [f|]; cbn; split; try discriminate; auto.
  intros H. edestruct H; reflexivity.
Qed.
(** a panic iff some provider gave a block without base fee *)
Lemma get_block_panics m : (forall r, get_block m <> Done r) <->
  exists e, eb_base_fee_per_gas e = None /\ (m = Consistent (ROk e) \/ exists p, gave m p e).
Proof.
  unfold get_block. destruct (equality_cases block_dec m) as [(v & -> & Hv)|(e & E & Em & Hno)].
  - assert (Hp : (forall r, map_reduce map_block (ROk v) <> Done r) <-> eb_base_fee_per_gas v = None).
    { rewrite <- map_block_panics. unfold map_reduce.
      destruct (map_block v) as [y|w]; cbn; split; intros H; try discriminate; edestruct H; reflexivity. }
    rewrite Hp. clear Hp. split.
    + intros H. exists v. split; auto. destruct Hv as [->|[Hv1 Hv2]]; auto. right.
      destruct m as [|rs]; [cbn in Hv1; lia|]. rewrite <- values_length in Hv1.
      destruct (values rs) as [|[p x] l] eqn:Ev; [cbn in Hv1; lia|]. exists p.
      assert (Hg : gave (Inconsistent rs) p x) by (apply gave_values; rewrite Ev; left; auto).
      rewrite <- (Hv2 _ _ Hg). exact Hg.
    + intros (e & He & [Hm|(p & Hg)]).
      * rewrite Hm in Hv. destruct Hv as [Hv|[Hv _]]; [injection Hv as <-; auto|cbn in Hv; lia].
      * destruct Hv as [->|[_ Hv]]; [destruct Hg as (? & ? & _); discriminate|]. rewrite <- (Hv _ _ Hg). auto.
  - rewrite E. destruct m as [[t|e0]|rs]; [discriminate| |].
    + cbn in Em. split; [|intros (x & _ & [H|(p & rs & H & _)]); discriminate].
      intros H. exfalso. destruct e0; injection Em as <-; cbn in H; edestruct H; reflexivity.
    + cbn in Em. injection Em as <-. fold (single_rs rs). cbn [map_reduce].
      match goal with |- context [rmap ?f ?l] => set (F := f); set (L := l) end.
      transitivity (forall ys, rmap F L <> Done ys).
      { destruct (rmap F L); cbn; split; intros H; try discriminate; edestruct H; reflexivity. }
      rewrite rmap_panic. split.
      * intros ([p [v|x]] & Hin & H); [|unfold F in H; cbn in H; edestruct H; reflexivity].
        exists v. split.
        -- apply map_block_panics. intros y Hy. unfold F in H. cbn in H. rewrite Hy in H. cbn in H. edestruct H; reflexivity.
        -- right. exists p. apply gave_values. apply values_in. unfold L, single_rs in Hin. apply in_map_iff in Hin as ([q [z|z]] & Hq & Hin); cbn in Hq; [|discriminate].
           injection Hq as <- <-. exact Hin.
      * intros (e & He & [H|(p & Hg)]); [discriminate|]. apply gave_values, values_in in Hg. exists (p, ROk e). split.
        -- unfold L, single_rs. apply in_map_iff. exists (p, ROk e). auto.
        -- intros y. unfold F. cbn. pose proof (proj2 (map_block_panics e) He) as Hm. destruct (map_block e) as [z|]; [destruct (Hm _ eq_refl)|discriminate].
Qed.

(** *** Receipts *)
Lemma map_receipt_iff o r : map_receipt o = Done (ROk (Some r)) <-> exists e, o = Some e /\ receipt_is e r.
Proof.
  unfold map_receipt. destruct o as [e|]; [|split; [discriminate|intros (? & ? & _); discriminate]].
  split.
  - intros H. injection H as H. exists e. split; auto. destruct (er_status e) as [n|] eqn:En; [|discriminate].
    destruct (N.ltb_spec 255 n) as [|Hn]; [discriminate|]. unfold status_of in H.
    destruct (N.eqb_spec n 0); [|destruct (N.eqb_spec n 1); [|discriminate]]; injection H as <-; subst; unfold receipt_is; cbn; auto 10.
  - intros (e' & E & (H1 & H2 & H3 & H4 & H5 & H6)). injection E as <-. rewrite H6. destruct r as [? ? ? ? st ?]; cbn in *; subst.
    destruct st; reflexivity.
Qed.
Lemma get_receipt_iff m r : get_receipt m = Done (ROk (Some r)) <-> exists e, agreed m (Some e) /\ receipt_is e r.
Proof.
  unfold get_receipt. rewrite map_equality_iff. split.
  - intros (o & Ha & H). apply map_receipt_iff in H as (e & -> & H). eauto.
  - intros (e & Ha & H). exists (Some e). split; auto. apply map_receipt_iff. eauto.
Qed.
Lemma get_receipt_none m : get_receipt m = Done (ROk None) <-> agreed m None.
Proof.
  unfold get_receipt. rewrite map_equality_iff. split.
  - intros ([e|] & Ha & H); auto. exfalso. cbn in H. destruct (er_status e) as [n|]; [|discriminate].
    destruct (255 <? n); [discriminate|]. destruct (status_of n); discriminate.
  - intros H. exists None. auto.
Qed.
Lemma get_receipt_total m : exists r, get_receipt m = Done r.
Proof. apply map_total. intros [e|]; cbn; eauto. Qed.

(** *** Counts and sends *)
Lemma rmap_ok {A B} (f : A -> B) l : rmap (fun x => Done (f x)) l = Done (map f l).
Proof. induction l as [|a l IH]; cbn; auto. rewrite IH. reflexivity. Qed.
Lemma rmap_ext {A B} (f g : A -> res B) l : (forall x, f x = g x) -> rmap f l = rmap g l.
Proof. intros H. induction l as [|a l IH]; cbn; auto. rewrite H, IH. reflexivity. Qed.
Definition mapped {T U} (f : T -> U) (m : MultiRpc T) : MultiRpc U :=
  match m with
  | Consistent (ROk v) => Consistent (ROk (f v))
  | Consistent (RErr e) => Consistent (RErr e)
  | Inconsistent rs => Inconsistent (map (fun x => (fst x, match snd x with ROk v => ROk (f v) | RErr e => RErr e end)) rs)
  end.
Lemma map_mapped {T U} (f : T -> U) m : map_reduce (fun v => Done (ROk (f v))) (from_multi m) = Done (from_multi (mapped f m)).
Proof.
  destruct m as [[v|e]|rs]; cbn; auto.
  - destruct e; reflexivity.
  - match goal with |- context [rmap ?g ?l] => rewrite (rmap_ext g (fun x => Done (fst x, match snd x with ROk v => ROk (f v) | RErr e => RErr e end))) end.
    + rewrite rmap_ok. cbn. rewrite !map_map. do 3 f_equal. apply map_ext. intros [p [v|e]]; reflexivity.
    + intros [p [v|e]]; reflexivity.
Qed.
Lemma mapped_id {T} (m : MultiRpc T) : mapped (fun v => v) m = m.
Proof.
  destruct m as [[v|e]|rs]; cbn; auto. f_equal. rewrite <- (map_id rs) at 2. apply map_ext. intros [p [v|e]]; reflexivity.
Qed.
Lemma count_of_eq m : count_of m = Done (from_multi m).
Proof. unfold count_of. rewrite (map_mapped (fun n => n)), mapped_id. reflexivity. Qed.

Lemma finalized_count_iff m n : get_finalized_count m = Done (ROk n) <-> agreed m n.
Proof.
  unfold get_finalized_count. rewrite count_of_eq. cbn. rewrite <- (equality_iff N.eq_dec). split; [intros H; injection H; auto|intros ->; auto].
Qed.
Lemma finalized_count_total m : exists r, get_finalized_count m = Done r.
Proof. unfold get_finalized_count. rewrite count_of_eq. cbn. eauto. Qed.

Lemma min_fold_le l : forall x : N, let r := fold_left (fun m y => if m <=? y then m else y) l x in
  In r (x :: l) /\ forall y, In y (x :: l) -> r <= y.
Proof.
  induction l as [|a l IH]; intros x; cbn [fold_left].
  - cbn. split; auto. intros y [<-|[]]. lia.
  - destruct (N.leb_spec x a) as [H|H].
    + destruct (IH x) as [H1 H2]. split; [destruct H1; [left; auto|right; right; auto]|].
      intros y [<-|[<-|Hy]]; [apply H2; left; auto| |apply H2; right; auto]. pose proof (H2 x (or_introl eq_refl)). lia.
    + destruct (IH a) as [H1 H2]. split; [right; destruct H1; [left; auto|right; auto]|].
      intros y [<-|[<-|Hy]]; [|apply H2; left; auto|apply H2; right; auto]. pose proof (H2 a (or_introl eq_refl)). lia.
Qed.
Lemma latest_count_iff m n : get_latest_count m = Done (ROk n) <->
  m = Consistent (ROk n) \/
  ((2 <= values_given m)%nat /\ (exists p, gave m p n) /\ forall p x, gave m p x -> n <= x).
Proof.
  unfold get_latest_count. rewrite count_of_eq. cbn [rbind]. destruct m as [[t|e]|rs].
  - cbn. split.
    + intros H. injection H as ->. auto.
    + intros [H|[H _]]; [injection H as ->; auto|lia].
  - cbn. split; [destruct e; discriminate|]. intros [H|[H _]]; [discriminate|lia].
  - cbn [from_multi]. fold (single_rs rs). unfold reduce_with_min. rewrite two_ok, ok_single, <- values_length.
    destruct (Nat.leb_spec 2 (List.length (values rs))) as [Hl|Hl].
    2:{ split; [discriminate|]. intros [H|[H _]]; [discriminate|lia]. }
    destruct (values rs) as [|[p0 x0] l] eqn:Ev; [cbn in Hl; lia|].
    cbn [map snd min_by_key expect rbind]. destruct (min_fold_le (map snd l) x0) as [H1 H2].
    set (r := fold_left _ _ x0) in *.
    assert (Hg : forall x, In x (x0 :: map snd l) <-> exists p, gave (Inconsistent rs) p x).
    { intros x. change (x0 :: map snd l) with (map snd ((p0, x0) :: l)). rewrite <- Ev, in_map_iff. split.
      - intros ([p y] & <- & H). exists p. apply gave_values. exact H.
      - intros (p & H). apply gave_values in H. exists (p, x). auto. }
    split.
    + intros H. injection H as <-. right. split; auto. split; [apply Hg; exact H1|]. intros p x Hx. apply H2, Hg. eauto.
    + intros [H|(_ & Hn & Hmin)]; [discriminate|]. do 2 f_equal. apply Hg in Hn. apply Hg in H1 as (p & H1).
      pose proof (Hmin _ _ H1). pose proof (H2 _ Hn). lia.
Qed.
Lemma latest_count_total m : exists r, get_latest_count m = Done r.
Proof.
  unfold get_latest_count. rewrite count_of_eq. cbn [rbind]. destruct (from_multi m) as [|e]; cbn; eauto.
  destruct e; cbn; eauto. destruct (ok_results rs) as [|a [|b l]]; cbn; eauto.
Qed.

Lemma send_iff m r : get_send m = Done (ROk r) <->
  (exists x, m = Consistent (ROk x) /\ send_of x = r) \/
  (exists a p x b, m = Inconsistent (a ++ (p, ROk x) :: b) /\ (forall q y, ~ In (q, ROk y) a) /\ send_of x = r).
Proof.
  unfold get_send. rewrite map_mapped. cbn [rbind]. destruct m as [[x|e]|rs].
  - cbn. split.
    + intros H. injection H as <-. left. eauto.
    + intros [(y & E & <-)|(? & ? & ? & ? & E & _)]; [injection E as <-; reflexivity|discriminate].
  - cbn. split; [destruct e; discriminate|]. intros [(y & E & _)|(? & ? & ? & ? & E & _)]; discriminate.
  - cbn [mapped from_multi]. unfold reduce_with_only_one, at_least_one_ok.
    match goal with |- context [ok_results (map ?g (map ?f rs))] => change (map g (map f rs)) with (single_rs (map f rs)) end.
    rewrite ok_single.
    match goal with |- context [RErr (InconsistentResults ?z)] => generalize z; intros bad end. split.
    + intros H. right. induction rs as [|[p [x|e]] rs IH]; cbn in H; [discriminate| |].
      * injection H as <-. exists [], p, x, rs. split; auto.
      * destruct (IH H) as (a & q & x & b & E & Hno & Hs). injection E as ->. exists ((p, RErr e) :: a), q, x, b.
        split; auto. split; auto. intros q' y [H'|H']; [discriminate|]. exact (Hno q' y H').
    + intros [(y & E & _)|(a & p & x & b & E & Hno & <-)]; [discriminate|]. injection E as ->.
      induction a as [|[q [y|e]] a IH]; cbn; auto.
      * destruct (Hno q y). left; auto.
      * apply IH. intros q' y H. apply (Hno q' y). right; auto.
Qed.
Lemma send_total m : exists r, get_send m = Done r.
Proof. unfold get_send. rewrite map_mapped. cbn. eauto. Qed.

(** *** Logs *)
Lemma starts_iff p l : starts_with p l = true <-> exists tail, l = p ++ tail.
Proof.
  revert l. induction p as [|a p IH]; intros l; cbn.
  - split; eauto.
  - destruct l as [|b l]; [split; [discriminate|intros (? & ?); discriminate]|].
    rewrite andb_true_iff, N.eqb_eq, IH. split.
    + intros (-> & t & ->). eauto.
    + intros (t & E). injection E as -> ->. eauto.
Qed.
Lemma contains_iff p l : contains p l = true <-> has_part p l.
Proof.
  induction l as [|b l IH]; cbn [contains has_part]; rewrite orb_true_iff, starts_iff; [|rewrite IH; reflexivity].
  split; intros [H|H]; auto; discriminate.
Qed.
Lemma too_large_iff e : is_response_too_large e = true <->
  exists message, e = IcError 1 message /\ has_part (text_of "size limit") message.
Proof.
  unfold is_response_too_large. destruct e as [c m|]; [|split; [discriminate|intros (? & ? & _); discriminate]].
  rewrite andb_true_iff, N.eqb_eq, contains_iff. split.
  - intros [-> H]. eauto.
  - intros (m' & E & H). injection E as -> ->. auto.
Qed.
Lemma logs_iff m l : get_logs m = ROk l <-> agreed m l.
Proof. apply equality_iff. Qed.
Lemma error_too_large (m : MultiRpc (list LogEntry)) e : from_multi m = RErr e ->
  has_http_error is_response_too_large e = true <-> said_too_large m.
Proof.
  intros E. unfold said_too_large. destruct m as [[v|x]|rs]; [discriminate| |]; cbn in E; injection E as <-.
  - split.
    + intros H. destruct x; try discriminate. cbn in H. apply too_large_iff in H as (msg & -> & H). eauto.
    + intros (msg & H & [E|(rs & p & E & _)]); [|discriminate]. injection E as ->. change (is_response_too_large (IcError 1 msg) = true). apply too_large_iff. eauto.
  - cbn. rewrite existsb_exists. split.
    + intros ([p r] & Hin & H). apply in_map_iff in Hin as ([q [v|x]] & Eq & Hin); cbn in Eq; injection Eq as <- <-; cbn in H; [discriminate|].
      destruct x; try discriminate. cbn in H. apply too_large_iff in H as (msg & -> & H). exists msg. split; auto. right. eauto.
    + intros (msg & H & [E|(rs' & p & E & Hin)]); [discriminate|]. injection E as <-.
      eexists. split; [apply in_map; exact Hin|]. change (is_response_too_large (IcError 1 msg) = true). apply too_large_iff. eauto.
Qed.
Lemma logs_reply_ok m l : logs_reply m = LogsOk l <-> agreed m l.
Proof.
  unfold logs_reply. rewrite <- logs_iff. destruct (get_logs m) as [x|e].
  - split; intros H; injection H as ->; auto.
  - split; [|discriminate]. destruct (has_http_error _ _); discriminate.
Qed.
Lemma logs_reply_large m : logs_reply m = LogsTooLarge <-> (forall l, ~ agreed m l) /\ said_too_large m.
Proof.
  unfold logs_reply, get_logs. destruct (equality_cases (list_eq_dec log_dec) m) as [(v & -> & Hv)|(e & -> & E & Hno)].
  - split; [discriminate|]. intros [H _]. destruct (H v Hv).
  - rewrite <- (error_too_large m e E). destruct (has_http_error _ _); split; auto; [discriminate|intros [_ H]; discriminate].
Qed.
Lemma receipt_reply_iff m : receipt_reply m = Done (ReceiptErr) \/
  (receipt_reply m = Done ReceiptMissing /\ agreed m None) \/
  (exists r e, receipt_reply m = Done (ReceiptOk r) /\ agreed m (Some e) /\ receipt_is e r).
Proof.
  unfold receipt_reply. destruct (get_receipt_total m) as ([[r|]|e] & E); rewrite E; cbn; auto.
  - apply get_receipt_iff in E as (e & H1 & H2). right. right. eauto 6.
  - apply get_receipt_none in E. auto.
Qed.

(** *** Retries *)
Lemma largest_unique {T} (m : MultiRpc T) e e' : largest_demand m e -> largest_demand m e' -> e = e'.
Proof. intros [H1 H2] [H3 H4]. pose proof (H2 _ H3). pose proof (H4 _ H1). lia. Qed.
Lemma demands_in {T} (m : MultiRpc T) e : demands m e <-> exists received, In (RErr (ProviderErr (TooFewCycles e received))) (all_results m).
Proof.
  unfold demands. destruct m as [r|rs]; cbn.
  - split.
    + intros (x & [E|(rs & p & E & _)]); [|discriminate]. injection E as ->. eauto.
    + intros (x & [->|[]]). eauto.
  - split.
    + intros (x & [E|(rs' & p & E & Hin)]); [discriminate|]. injection E as <-. exists x. apply in_map_iff. eexists. split; [|exact Hin]. reflexivity.
    + intros (x & H). apply in_map_iff in H as ([p r] & E & Hin). cbn in E. subst r. exists x. right. eauto.
Qed.
Definition demand_of {T} (a : option N) (r : RpcResult T) : option N :=
  match r with
  | RErr (ProviderErr (TooFewCycles e0 _)) => Some match a with Some x => N.max x e0 | None => e0 end
  | _ => a
  end.
Lemma demand_fold {T} (l : list (RpcResult T)) :
  match fold_left demand_of l None with
  | Some e => (exists z, In (RErr (ProviderErr (TooFewCycles e z))) l) /\
              forall e' z, In (RErr (ProviderErr (TooFewCycles e' z))) l -> e' <= e
  | None => forall e' z, ~ In (RErr (ProviderErr (TooFewCycles e' z))) l
  end.
Proof.
  assert (Hd : forall r : RpcResult T, (exists e0 z, r = RErr (ProviderErr (TooFewCycles e0 z))) \/
    (forall a, demand_of a r = a) /\ forall e0 z, r <> RErr (ProviderErr (TooFewCycles e0 z))).
  { intros [v|[[e0 z|]| | |]]; eauto; right; (split; [reflexivity|discriminate]). }
  induction l as [|r l IH] using rev_ind; [intros e' z []|].
  rewrite fold_left_app. cbn [fold_left]. destruct (Hd r) as [(e0 & z & ->)|[Hr Hn]].
  - cbn [demand_of]. destruct (fold_left demand_of l None) as [x|].
    + destruct IH as [(zx & Hx) Hm]. split.
      * destruct (N.max_spec x e0) as [[_ ->]|[_ ->]]; [exists z|exists zx]; apply in_or_app; cbn; auto.
      * intros e' z' H. apply in_app_or in H as [H|[H|[]]]; [apply Hm in H; lia|injection H as <- _; lia].
    + split; [exists z; apply in_or_app; cbn; auto|].
      intros e' z' H. apply in_app_or in H as [H|[H|[]]]; [destruct (IH _ _ H)|injection H as <- _; lia].
  - rewrite Hr. destruct (fold_left demand_of l None) as [x|].
    + destruct IH as [(zx & Hx) Hm]. split; [exists zx; apply in_or_app; auto|].
      intros e' z' H. apply in_app_or in H as [H|[H|[]]]; [eauto|destruct (Hn _ _ H)].
    + intros e' z' H. apply in_app_or in H as [H|[H|[]]]; [exact (IH _ _ H)|destruct (Hn _ _ H)].
Qed.
Lemma expected_iff {T} (m : MultiRpc T) e : expected_cycles m = Some e <-> largest_demand m e.
Proof.
  pose proof (demand_fold (all_results m)) as H. change (fold_left demand_of (all_results m) None) with (expected_cycles m) in H.
  assert (H' : expected_cycles m = Some e -> largest_demand m e).
  { intros E. rewrite E in H. destruct H as [H1 H2]. split; [apply demands_in; auto|].
    intros e' He. apply demands_in in He as (z & Hz). eauto. }
  split; auto. intros He. destruct (expected_cycles m) as [x|].
  - f_equal. apply (largest_unique m); auto. destruct H as [H1 H2]. split; [apply demands_in; auto|].
    intros e' He'. apply demands_in in He' as (z & Hz). eauto.
  - destruct He as [He _]. apply demands_in in He as (z & Hz). destruct (H _ _ Hz).
Qed.
Lemma expected_none {T} (m : MultiRpc T) : expected_cycles m = None <-> forall e, ~ demands m e.
Proof.
  split.
  - intros E e He. pose proof (demand_fold (all_results m)) as H. change (fold_left demand_of (all_results m) None) with (expected_cycles m) in H.
    rewrite E in H. apply demands_in in He as (z & Hz). exact (H _ _ Hz).
  - intros H. destruct (expected_cycles m) as [e|] eqn:E; auto. apply expected_iff in E as [He _]. destruct (H _ He).
Qed.
Lemma loop_attempts {T} (ask : nat -> N -> MultiRpc T) left n c l last : call_loop ask n left c = (l, last) ->
  attempts_from c l last /\ (1 <= List.length l <= 1 + left)%nat /\
  ((List.length l < 1 + left)%nat -> forall e, ~ demands last e) /\
  (forall i c' m, nth_error l i = Some (c', m) -> m = ask (n + i)%nat c').
Proof.
  revert n c l last. induction left as [|left IH]; intros n c l last; cbn [call_loop].
  - assert (H : call_loop ask n 0 c = ([(c, ask n c)], ask n c)) by (cbn; destruct (expected_cycles (ask n c)); reflexivity).
    cbn [call_loop] in H. rewrite H. intros E. injection E as <- <-. split; [constructor|]. split; [cbn; lia|]. split; [cbn; lia|].
    intros [|i] c' m E; [injection E as <- <-; f_equal; lia|destruct i; discriminate].
  - destruct (expected_cycles (ask n c)) as [e|] eqn:Ex.
    + destruct (call_loop ask (S n) left _) as [more r] eqn:El. intros E. injection E as <- <-.
      apply IH in El as (H1 & H2 & H3 & H4). split.
      * econstructor; [apply expected_iff; exact Ex|]. exact H1.
      * split; [cbn; lia|]. split; [intros H; apply H3; cbn in H; lia|].
        intros [|i] c' m E; cbn in E; [injection E as <- <-; f_equal; lia|]. apply H4 in E. rewrite E. f_equal. lia.
    + intros E. injection E as <- <-. split; [constructor|]. split; [cbn; lia|]. split.
      * intros _. apply expected_none. exact Ex.
      * intros [|i] c' m E; [injection E as <- <-; f_equal; lia|destruct i; discriminate].
Qed.

(** *** The plurality vote *)
Section Vote.
Context {T : Type}.
Variable eq_dec : forall a b : T, {a = b} + {a <> b}.
Variable key : T -> N.

Definition uniform (vs : list (Service * T)) : Prop :=
  forall p v p' v', In (p, v) vs -> In (p', v') vs -> key v = key v' -> v = v'.
Definition voting (vs : list (Service * T)) (k : N) (l : list Service) : Prop :=
  NoDup l /\ forall p, In p l <-> exists v, In (p, v) vs /\ key v = k.

Lemma voting_length vs k l l' : voting vs k l -> voting vs k l' -> List.length l = List.length l'.
Proof.
  intros [H1 H2] [H3 H4]. apply Permutation_length. apply NoDup_Permutation; auto.
  intros p. rewrite H2, H4. reflexivity.
Qed.

Record counted (vs : list (Service * T)) (votes : bmap N (Ballot (T := T))) : Prop := {
  cn_sorted : bsorted votes;
  cn_ballot : forall k b, bget k votes = Some b -> bsorted b /\ b <> [] /\ forall p v, In (p, v) b -> In (p, v) vs /\ key v = k;
  cn_all : forall p v, In (p, v) vs -> exists b, bget (key v) votes = Some b /\ In p (bkeys b);
  cn_uniform : uniform vs }.

Lemma tally_spec l : forall vs votes, counted vs votes ->
  (exists votes', tally eq_dec key l votes = Done (ROk votes') /\ counted (vs ++ l) votes') \/
  (exists e, tally eq_dec key l votes = Done (RErr e)) /\ ~ uniform (vs ++ l).
Proof.
  induction l as [|[p v] l IH]; intros vs votes [C1 C2 C3 C4].
  - left. exists votes. rewrite app_nil_r. split; [reflexivity|]. constructor; auto.
  - assert (Eapp : vs ++ (p, v) :: l = (vs ++ [(p, v)]) ++ l) by (rewrite <- app_assoc; reflexivity).
    cbn [tally]. destruct (bget (key v) votes) as [b|] eqn:Eb.
    + destruct (C2 _ _ Eb) as (Hs & Hne & Hb).
      destruct (WtInv.last_opt_some b Hne) as ([q w] & Eq). rewrite Eq. cbn [expect rbind snd].
      pose proof (last_opt_in _ _ Eq) as Hin. destruct (Hb _ _ Hin) as [Hq Hk].
      destruct (eq_dec v w) as [E|E].
      * rewrite Eapp. apply IH. constructor.
        -- apply bsorted_insert, bsorted_remove, C1.
        -- intros k b' H. destruct (N.eq_dec k (key v)) as [->|Hkn].
           ++ rewrite bget_insert_eq in H. injection H as <-. split; [apply bsorted_insert; auto|]. split.
              ** intros En. pose proof (bget_insert_eq p v b) as Hg. rewrite En in Hg. discriminate.
              ** intros p' v' H. apply (proj2 (bget_iff_In _ _ _ (bsorted_insert p v b Hs))) in H.
                 destruct (N.eq_dec p' p) as [->|Hp].
                 --- rewrite bget_insert_eq in H. injection H as <-. split; auto. apply in_or_app. right. left; auto.
                 --- rewrite bget_insert_ne in H by auto. apply bget_In in H. apply Hb in H as [H ?]. split; auto. apply in_or_app; auto.
           ++ rewrite bget_insert_ne, bget_remove_ne in H by auto. destruct (C2 _ _ H) as (? & ? & H'). split; auto. split; auto.
              intros p' v' Hi. apply H' in Hi as [? ?]. split; auto. apply in_or_app; auto.
        -- intros p' v' H. apply in_app_or in H as [H|[H|[]]].
           ++ destruct (C3 _ _ H) as (b' & Hg & Hi). destruct (N.eq_dec (key v') (key v)) as [Ek|Hkn].
              ** rewrite Ek in *. rewrite Eb in Hg. injection Hg as <-. rewrite bget_insert_eq. eexists. split; [reflexivity|].
                 apply bget_In_keys. rewrite bget_insert. destruct (keqb p' p); [discriminate|]. apply bget_In_keys. auto.
              ** rewrite bget_insert_ne, bget_remove_ne by auto. eauto.
           ++ injection H as <- <-. rewrite bget_insert_eq. eexists. split; [reflexivity|]. apply bget_In_keys.
              rewrite bget_insert_eq. discriminate.
        -- subst w. intros p1 v1 p2 v2 H1 H2 Ek. apply in_app_or in H1, H2.
           destruct H1 as [H1|[H1|[]]], H2 as [H2|[H2|[]]]; try (injection H1 as <- <-); try (injection H2 as <- <-); auto.
           ++ exact (C4 _ _ _ _ H1 H2 Ek).
           ++ exact (C4 _ _ _ _ H1 Hq Ek).
           ++ exact (C4 _ _ _ _ Hq H2 Ek).
      * right. split; [eauto|]. intros Hu. apply E. apply (Hu p v q w); auto; [|apply in_or_app; auto].
        apply in_or_app. right. left; auto.
    + rewrite Eapp. apply IH. assert (Hno : forall p' v', In (p', v') vs -> key v' <> key v).
      { intros p' v' H Ek. destruct (C3 _ _ H) as (b & Hg & _). rewrite Ek in Hg. congruence. }
      constructor.
      * apply bsorted_insert, C1.
      * intros k b' H. destruct (N.eq_dec k (key v)) as [->|Hkn].
        -- rewrite bget_insert_eq in H. injection H as <-. split; [repeat constructor|]. split; [discriminate|].
           intros p' v' [H|[]]. injection H as <- <-. split; auto. apply in_or_app. right. left; auto.
        -- rewrite bget_insert_ne in H by auto. destruct (C2 _ _ H) as (? & ? & H'). split; auto. split; auto.
           intros p' v' Hi. apply H' in Hi as [? ?]. split; auto. apply in_or_app; auto.
      * intros p' v' H. apply in_app_or in H as [H|[H|[]]].
        -- destruct (C3 _ _ H) as (b' & Hg & Hi). rewrite bget_insert_ne by (apply (Hno p'); auto). eauto.
        -- injection H as <- <-. rewrite bget_insert_eq. eexists. split; [reflexivity|]. left; auto.
      * intros p1 v1 p2 v2 H1 H2 Ek. apply in_app_or in H1, H2.
        destruct H1 as [H1|[H1|[]]], H2 as [H2|[H2|[]]]; try (injection H1 as <- <-); try (injection H2 as <- <-); auto.
        -- exact (C4 _ _ _ _ H1 H2 Ek).
        -- destruct (Hno _ _ H1 Ek).
        -- destruct (Hno _ _ H2 (eq_sym Ek)).
Qed.

Lemma counted_nil : counted [] [].
Proof. constructor; [constructor| | |]; intros; try discriminate; [destruct H|intros ? ? ? ? []]. Qed.

(** A ballot lists the providers that gave a value with its key *)
Lemma ballot_voting vs votes k b : counted vs votes -> bget k votes = Some b -> voting vs k (bkeys b).
Proof.
  intros [C1 C2 C3 C4] Hg. destruct (C2 _ _ Hg) as (Hs & _ & Hb). split; [apply bsorted_NoDup; auto|]. intros p. split.
  - intros H. apply in_map_iff in H as ([p' v] & E & H). cbn in E. subst p'. apply Hb in H. eauto.
  - intros (v & H & Ek). destruct (C3 _ _ H) as (b' & Hg' & Hi). rewrite Ek in Hg'. congruence.
Qed.

Notation votes_of := (fun x : N * Ballot (T := T) => List.length (snd x)).
Lemma place_perm x l : Permutation (x :: l) (place (T := T) x l).
Proof.
  induction l as [|y l IH]; cbn; auto. destruct (Nat.leb _ _); auto.
  rewrite perm_swap. constructor. exact IH.
Qed.
Lemma by_votes_perm l : Permutation l (by_votes (T := T) l).
Proof. induction l as [|x l IH]; cbn; auto. rewrite IH at 1. apply place_perm. Qed.
Lemma place_sorted x l : StronglySorted (fun a b => (votes_of a <= votes_of b)%nat) l ->
  StronglySorted (fun a b => (votes_of a <= votes_of b)%nat) (place (T := T) x l).
Proof.
  induction 1 as [|y l Hs IH Hall]; cbn; [repeat constructor|].
  destruct (Nat.leb_spec (votes_of x) (votes_of y)).
  - constructor; [constructor; auto|]. constructor; auto. rewrite Forall_forall in *. intros z Hz. apply Hall in Hz. lia.
  - constructor; auto. rewrite Forall_forall in *. intros z Hz. apply (Permutation_in _ (Permutation_sym (place_perm x l))) in Hz as [<-|Hz]; auto. lia.
Qed.
Lemma by_votes_sorted l : StronglySorted (fun a b => (votes_of a <= votes_of b)%nat) (by_votes (T := T) l).
Proof. induction l as [|x l IH]; cbn; [constructor|]. apply place_sorted, IH. Qed.
Lemma sorted_last (l : list (N * Ballot (T := T))) x : StronglySorted (fun a b => (votes_of a <= votes_of b)%nat) (l ++ [x]) ->
  StronglySorted (fun a b => (votes_of a <= votes_of b)%nat) l /\ forall z, In z l -> (votes_of z <= votes_of x)%nat.
Proof.
  induction l as [|y l IH]; cbn; intros H; [split; [constructor|intros z []]|].
  apply StronglySorted_inv in H as [H Hall]. destruct (IH H) as [H1 H2]. rewrite Forall_forall in Hall. split.
  - constructor; auto. rewrite Forall_forall. intros z Hz. apply Hall, in_or_app; auto.
  - intros z [<-|Hz]; auto. apply Hall, in_or_app. right. left; auto.
Qed.
Lemma by_votes_top l x rest : rev (by_votes (T := T) l) = x :: rest ->
  In x l /\ (forall z, In z l -> z = x \/ In z rest) /\ (forall z, In z rest -> (votes_of z <= votes_of x)%nat) /\
  StronglySorted (fun a b => (votes_of a <= votes_of b)%nat) (rev rest) /\ (forall z, In z rest -> In z l) /\
  Permutation l (x :: rest).
Proof.
  intros E. pose proof (by_votes_sorted l) as Hs. assert (Eb : by_votes l = rev rest ++ [x]).
  { rewrite <- (rev_involutive (by_votes l)), E. reflexivity. }
  rewrite Eb in Hs. apply sorted_last in Hs as [H1 H2].
  assert (Hp : Permutation l (x :: rest)).
  { rewrite (by_votes_perm l), Eb, <- Permutation_rev. apply Permutation_sym, Permutation_cons_append. }
  split; [apply (Permutation_in _ (Permutation_sym Hp)); left; auto|]. split.
  { intros z Hz. apply (Permutation_in _ Hp) in Hz as [<-|Hz]; auto. }
  split; [intros z Hz; apply H2; rewrite <- in_rev; auto|]. split; auto. split; auto.
  intros z Hz. apply (Permutation_in _ (Permutation_sym Hp)). right; auto.
Qed.

Definition decide (votes : bmap N (Ballot (T := T))) : res (Reduced T) :=
  match rev (by_votes votes) with
  | [] => Panic "BUG: tally should be non-empty"
  | [(_, b)] => v <- winner b "BUG: tally is non-empty" ;; Done (ROk v)
  | (_, first) :: (_, second) :: _ =>
      if Nat.ltb (List.length second) (List.length first)
      then v <- winner first "BUG: tally should be non-empty" ;; Done (ROk v)
      else Done (RErr (conflict (first ++ second)))
  end.

Definition wins (vs : list (Service * T)) (v : T) : Prop :=
  uniform vs /\ (exists p, In (p, v) vs) /\
  forall k l l', k <> key v -> voting vs (key v) l -> voting vs k l' -> (l' <> [] -> List.length l' < List.length l)%nat.

Lemma winner_done vs votes k b msg : counted vs votes -> bget k votes = Some b ->
  exists v p, winner b msg = Done v /\ In (p, v) vs /\ key v = k.
Proof.
  intros [C1 C2 C3 C4] Hg. destruct (C2 _ _ Hg) as (_ & Hne & Hb).
  destruct (WtInv.last_opt_some b Hne) as ([q w] & Eq). exists w, q. unfold winner. rewrite Eq. cbn.
  split; auto. apply Hb. apply last_opt_in, Eq.
Qed.
Lemma keys_length {V} (b : bmap Service V) : List.length (bkeys b) = List.length b.
Proof. apply map_length. Qed.

(** A value whose key has strictly more voters than any other wins *)
Lemma wins_of vs votes k b v p : counted vs votes -> bget k votes = Some b -> In (p, v) vs -> key v = k ->
  (forall k' b', k' <> k -> bget k' votes = Some b' -> (List.length b' < List.length b)%nat) -> wins vs v.
Proof.
  intros Hc Hg Hin Ek Hmax. split; [apply Hc|]. split; [eauto|]. intros k' l l' Hk Hl Hl' Hne.
  rewrite Ek in *. rewrite (voting_length _ _ _ _ Hl (ballot_voting _ _ _ _ Hc Hg)), keys_length.
  destruct l' as [|q l']; [congruence|]. destruct (proj1 (proj2 Hl' q)) as (w & Hw & Ew); [left; auto|].
  destruct (cn_all _ _ Hc _ _ Hw) as (b' & Hg' & _). rewrite Ew in Hg'.
  rewrite (voting_length _ _ _ _ Hl' (ballot_voting _ _ _ _ Hc Hg')), keys_length. eauto.
Qed.
Lemma wins_unique vs v w : wins vs v -> wins vs w -> v = w.
Proof.
  intros (Hu & (p & Hp) & Hv) (_ & (q & Hq) & Hw). destruct (N.eq_dec (key v) (key w)) as [E|E]; [exact (Hu _ _ _ _ Hp Hq E)|].
  exfalso. assert (Hex : forall k, exists l, voting vs k l).
  { intros k. exists (nodup N.eq_dec (map fst (filter (fun x => N.eqb (key (snd x)) k) vs))). split; [apply NoDup_nodup|].
    intros x. rewrite nodup_In, in_map_iff. split.
    - intros ([y z] & Ey & H). cbn in Ey. subst y. apply filter_In in H as [H Hk]. apply N.eqb_eq in Hk. eauto.
    - intros (z & H & Hk). exists (x, z). split; auto. apply filter_In. split; auto. apply N.eqb_eq. auto. }
  destruct (Hex (key v)) as (l & Hl), (Hex (key w)) as (l' & Hl').
  assert (N1 : l <> []). { intros ->. destruct (proj2 (proj2 Hl p)). eauto. }
  assert (N2 : l' <> []). { intros ->. destruct (proj2 (proj2 Hl' q)). eauto. }
  pose proof (Hv _ _ _ (not_eq_sym E) Hl Hl' N2). pose proof (Hw _ _ _ E Hl' Hl N1). lia.
Qed.

Lemma decide_spec vs votes : counted vs votes -> vs <> [] ->
  (exists v, decide votes = Done (ROk v) /\ wins vs v) \/ (exists e, decide votes = Done (RErr e)) /\ forall v, ~ wins vs v.
Proof.
  intros Hc Hne. pose proof Hc as [C1 C2 C3 C4]. unfold decide. destruct (rev (by_votes votes)) as [|[k b] rest] eqn:E.
  { destruct vs as [|[p v] vs]; [congruence|]. destruct (C3 p v) as (b & Hg & _); [left; auto|].
    apply bget_In in Hg. apply (Permutation_in _ (by_votes_perm votes)) in Hg. rewrite in_rev, E in Hg. destruct Hg. }
  destruct (by_votes_top _ _ _ E) as (T1 & T2 & T3 & T4 & T5 & T6). apply (proj2 (bget_iff_In _ _ _ C1)) in T1.
  assert (Hnd : NoDup (k :: map fst rest)).
  { change (NoDup (map fst ((k, b) :: rest))). eapply Permutation_NoDup; [apply Permutation_map; exact T6|]. apply bsorted_NoDup; auto. }
  destruct rest as [|[k2 b2] rest].
  - destruct (winner_done _ _ _ _ "BUG: tally is non-empty" Hc T1) as (v & p & -> & Hin & Ek). cbn. left. exists v. split; auto.
    apply (wins_of vs votes k b v p Hc T1 Hin Ek). intros k' b' Hk Hg. apply bget_In in Hg. destruct (T2 _ Hg) as [H|[]]. congruence.
  - change (rev ((k2, b2) :: rest)) with (rev rest ++ [(k2, b2)]) in T4. apply sorted_last in T4 as [_ Hr].
    assert (T5' : bget k2 votes = Some b2) by (apply (bget_iff_In _ _ _ C1), T5; left; auto).
    assert (Hk2 : k2 <> k) by (intros ->; inversion Hnd; cbn in *; tauto).
    destruct (Nat.ltb_spec (List.length b2) (List.length b)) as [Hlt|Hle].
    + destruct (winner_done _ _ _ _ "BUG: tally should be non-empty" Hc T1) as (v & p & -> & Hin & Ek). cbn. left. exists v. split; auto.
      apply (wins_of vs votes k b v p Hc T1 Hin Ek). intros k' b' Hk Hg. apply bget_In in Hg. destruct (T2 _ Hg) as [H|[H|H]]; [congruence|injection H as _ <-; exact Hlt|].
      rewrite in_rev in H. apply Hr in H. cbn in H. lia.
    + right. split; [eauto|]. intros v (Hu & (p & Hin) & Hv).
      destruct (C3 _ _ Hin) as (b' & Hg & _).
      (* the ballots at the top have as many voters as each other *)
      assert (Hb2 : (List.length b' <= List.length b)%nat).
      { apply bget_In in Hg. destruct (T2 _ Hg) as [H|H]; [injection H as _ ->; lia|apply (T3 _ H)]. }
      assert (Hneb : bkeys b <> [] /\ bkeys b2 <> []).
      { destruct (C2 _ _ T1) as (_ & H1 & _), (C2 _ _ T5') as (_ & H2 & _). split; intros H; apply map_eq_nil in H; auto. }
      destruct (N.eq_dec (key v) k) as [Ek|Ek].
      * rewrite Ek in *. rewrite T1 in Hg. injection Hg as <-.
        pose proof (Hv k2 _ _ Hk2 (ballot_voting _ _ _ _ Hc T1) (ballot_voting _ _ _ _ Hc T5') (proj2 Hneb)). rewrite !keys_length in *. lia.
      * pose proof (Hv k _ _ (not_eq_sym Ek) (ballot_voting _ _ _ _ Hc Hg) (ballot_voting _ _ _ _ Hc T1) (proj1 Hneb)). rewrite !keys_length in *. lia.
Qed.

Lemma majority_spec rs (vs := ok_results rs) :
  exists r, reduce_with_strict_majority eq_dec key (RErr (InconsistentResults rs)) = Done r /\
  forall v, r = ROk v <-> (2 <= List.length vs)%nat /\ wins vs v.
Proof.
  unfold reduce_with_strict_majority. rewrite two_ok. fold vs.
  destruct (Nat.leb_spec 2 (List.length vs)) as [Hl|Hl]; [|eexists; split; [reflexivity|]; intros v; split; [discriminate|lia]].
  destruct (tally_spec vs [] [] counted_nil) as [(votes & -> & Hc)|((e & ->) & Hn)]; cbn [app rbind] in *.
  - fold (decide votes). assert (Hne : vs <> []) by (intros E; rewrite E in Hl; cbn in Hl; lia).
    destruct (decide_spec vs votes Hc Hne) as [(w & E & Hw)|((e & E) & Hno)].
    + exists (ROk w). split; [exact E|]. intros v. split.
      * intros H. injection H as <-. auto.
      * intros [_ H]. f_equal. exact (wins_unique vs w v Hw H).
    + exists (RErr e). split; [exact E|]. intros v. split; [discriminate|]. intros [_ H]. destruct (Hno _ H).
  - eexists. split; [reflexivity|]. intros v. split; [discriminate|]. intros [_ [H _]]. destruct (Hn H).
Qed.
End Vote.

(** *** Fee histories *)
Definition histories (rs : list (Service * RpcResult (option FeeHistory))) : list (Service * FeeHistory) :=
  flat_map (fun x => match snd x with ROk (Some h) => [(fst x, h)] | _ => [] end) rs.
Lemma histories_in rs p h : In (p, h) (histories rs) <-> gave (Inconsistent rs) p (Some h).
Proof.
  unfold histories, gave. rewrite in_flat_map. split.
  - intros ([q [[x|]|e]] & Hin & H); cbn in H; [|destruct H|destruct H]. destruct H as [H|[]]. injection H as <- <-. eauto.
  - intros (rs' & E & H). injection E as <-. exists (p, ROk (Some h)). split; auto. left; reflexivity.
Qed.
Lemma histories_length rs : List.length (histories rs) = histories_given (Inconsistent rs).
Proof. cbn. induction rs as [|[p [[v|]|e]] rs IH]; cbn; auto. Qed.
Lemma fee_mapped rs : exists rs', map_reduce map_fee_history (from_multi (Inconsistent rs)) = Done (RErr (InconsistentResults rs')) /\
  ok_results rs' = histories rs.
Proof.
  cbn. match goal with |- context [rmap ?g ?l] => rewrite (rmap_ext g (fun x => Done (fst x,
    match snd x with ROk (Some h) => ROk h | ROk None => RErr (SingleEvm (FromText (text_of "No fee history available"))) | RErr e => RErr e end))) end.
  - rewrite rmap_ok. cbn [rbind]. eexists. split; [reflexivity|].
    induction rs as [|[p [[h|]|e]] rs IH]; cbn; auto. f_equal. exact IH.
  - intros [p [[h|]|e]]; reflexivity.
Qed.
Lemma voting_voters rs k l : voting fh_oldest_block (histories rs) k l <-> voters (Inconsistent rs) k l.
Proof.
  unfold voting, voters. split; intros [H1 H2]; (split; [exact H1|]); intros p; rewrite H2; split; intros (h & H & E); exists h; (split; [apply histories_in; exact H|exact E]).
Qed.
Lemma fee_history_spec m : exists r, get_fee_history m = Done r /\ forall h, r = ROk h <-> m = Consistent (ROk (Some h)) \/ elected m h.
Proof.
  assert (Hc : forall r h, ~ elected (Consistent r) h).
  { intros r h (Hn & _). cbn in Hn. lia. }
  unfold get_fee_history. destruct m as [[[h|]|e]|rs].
  - cbn. eexists. split; [reflexivity|]. intros h'. split.
    + intros E. injection E as <-. auto.
    + intros [E|E]; [injection E as <-; auto|destruct (Hc _ _ E)].
  - cbn. eexists. split; [reflexivity|]. intros h'. split; [discriminate|]. intros [E|E]; [discriminate|destruct (Hc _ _ E)].
  - destruct e; cbn; (eexists; split; [reflexivity|]; intros h'; split; [discriminate|]; intros [E|E]; [discriminate|destruct (Hc _ _ E)]).
  - destruct (fee_mapped rs) as (rs' & -> & E). cbn [rbind].
    destruct (majority_spec fee_history_dec fh_oldest_block rs') as (r & -> & Hr). exists r. split; auto. intros h. rewrite Hr, E. clear Hr.
    rewrite histories_length. unfold elected, wins. split.
    + intros (Hn & Hu & (p & Hp) & Hv). right. split; auto. split; [|split].
      * intros q x q' x' H1 H2. apply (Hu q x q' x'); apply histories_in; auto.
      * exists p. apply histories_in. auto.
      * intros k l l' Hk Hl Hl'. apply voting_voters in Hl, Hl'. destruct l' as [|q l'].
        -- destruct l as [|q l]; [|cbn; lia]. destruct (proj2 (proj2 Hl p)). eauto.
        -- apply (Hv k l (q :: l')); auto. discriminate.
    + intros [H|(Hn & Hu & (p & Hp) & Hv)]; [discriminate|]. split; auto. split; [|split].
      * intros q x q' x' H1 H2. apply histories_in in H1, H2. apply (Hu q x q' x'); auto.
      * exists p. apply histories_in. auto.
      * intros k l l' Hk Hl Hl' _. apply voting_voters in Hl, Hl'. eauto.
Qed.

(** With at most three answers, each of another provider, an elected history has a majority *)
Lemma nodup_histories rs : NoDup (map fst rs) -> NoDup (map fst (histories rs)).
Proof.
  induction rs as [|[p [[h|]|e]] rs IH]; cbn; intros H; auto; apply NoDup_cons_iff in H as [H1 H2]; auto.
  constructor; auto. intros Hin. apply H1. apply in_map_iff in Hin as ([q x] & E & Hin). cbn in E. subst q.
  apply histories_in in Hin as (rs' & E & Hin). injection E as <-. apply in_map_iff. exists (p, ROk (Some x)). auto.
Qed.
Lemma small_majority rs h : NoDup (map fst rs) -> (histories_given (Inconsistent rs) <= 3)%nat ->
  elected (Inconsistent rs) h -> majority (Inconsistent rs) h.
Proof.
  intros Hnd Hle (Hn & Hu & (p & Hp) & Hv). right.
  assert (Hex : forall k, exists l, voters (Inconsistent rs) k l).
  { intros k. exists (nodup N.eq_dec (map fst (filter (fun x => N.eqb (fh_oldest_block (snd x)) k) (histories rs)))). apply voting_voters.
    split; [apply NoDup_nodup|]. intros x. rewrite nodup_In, in_map_iff. split.
    - intros ([y z] & Ey & H). cbn in Ey. subst y. apply filter_In in H as [H Hk]. apply N.eqb_eq in Hk. eauto.
    - intros (z & H & Hk). exists (x, z). split; auto. apply filter_In. split; auto. apply N.eqb_eq. auto. }
  destruct (Hex (fh_oldest_block h)) as (l & Hl). exists l. split; [apply Hl|]. split.
  { intros q Hq. apply (proj2 Hl) in Hq as (x & Hx & Ek). rewrite <- (Hu _ _ _ _ Hx Hp Ek). exact Hx. }
  enough (2 <= List.length l)%nat by lia.
  pose proof (nodup_histories rs Hnd) as Hh. rewrite <- histories_length in Hn.
  destruct (histories rs) as [|[p1 h1] [|[p2 h2] t]] eqn:Eh; cbn in Hn; try lia.
  cbn in Hh. assert (Hne : p1 <> p2) by (intros ->; apply NoDup_cons_iff in Hh as [H _]; apply H; left; auto).
  assert (G1 : gave (Inconsistent rs) p1 (Some h1)) by (apply histories_in; rewrite Eh; left; auto).
  assert (G2 : gave (Inconsistent rs) p2 (Some h2)) by (apply histories_in; rewrite Eh; right; left; auto).
  assert (Hother : forall q x, gave (Inconsistent rs) q (Some x) -> fh_oldest_block x <> fh_oldest_block h -> (2 <= List.length l)%nat).
  { intros q x Hg Hk. destruct (Hex (fh_oldest_block x)) as (l' & Hl'). pose proof (Hv _ _ _ Hk Hl Hl').
    assert (In q l') by (apply (proj2 Hl'); eauto). destruct l'; [destruct H0|cbn in H; lia]. }
  destruct (N.eq_dec (fh_oldest_block h1) (fh_oldest_block h)) as [E1|E1]; [|eauto].
  destruct (N.eq_dec (fh_oldest_block h2) (fh_oldest_block h)) as [E2|E2]; [|eauto].
  assert (I1 : In p1 l) by (apply (proj2 Hl); eauto). assert (I2 : In p2 l) by (apply (proj2 Hl); eauto).
  change 2%nat with (List.length [p1; p2]). apply NoDup_incl_length.
  - constructor; [intros [H|[]]; auto|]. constructor; [intros []|constructor].
  - intros x [<-|[<-|[]]]; auto.
Qed.
