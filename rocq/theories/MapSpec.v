(** * MapSpec: what a map with two keys should do.

    A specification, written without the implementation: a table is a plain list of
    rows (key, alternative key, value), searched by [find], changed by [filter]. Both
    machines run the same operations and return the same kind of answers. *)

From Verif Require Import Base BMap MultiKeyMap.

(** Insertion sort by a key. *)
Section Sort.
  Context {T X : Type} `{OrdX : Ord X} (f : T -> X).
  Fixpoint sort_insert (r : T) (l : list T) : list T :=
    match l with
    | [] => [r]
    | x :: l' => match cmp (f r) (f x) with
                 | Gt => x :: sort_insert r l'
                 | _ => r :: l
                 end
    end.
  Definition sort_by (l : list T) : list T := fold_right sort_insert [] l.
End Sort.

Section Spec.
  Context {K A V : Type} `{OrdK : Ord K} `{OrdA : Ord A}.

  Inductive op :=
  | OInsert (k : K) (a : A) (v : V)
  | OGet (k : K) | OGetEntry (k : K) | OGetAlt (a : A)
  | OContains (k : K) | OContainsAlt (a : A) | OIsEmpty
  | OUpdate (k : K) (f : V -> V)
  | ORemove (k : K)
  | ODrain (p : K -> bool)
  | OIter | OKeys | OAltKeys.

  Inductive out :=
  | RInsert (r : result unit (occupied K A))
  | RVal (v : option V)
  | REntry (e : option (A * V))
  | REntryAlt (e : option (K * V))
  | RBool (b : bool)
  | RRow (r : option (K * A * V))
  | RRows (l : list (K * A * V))
  | RKeys (l : list K)
  | RAlts (l : list A).

  Definition trow : Type := K * A * V.
  Definition table : Type := list trow.
  Definition row_key (r : trow) : K := fst (fst r).
  Definition row_alt (r : trow) : A := snd (fst r).
  Definition row_val (r : trow) : V := snd r.
  Definition with_key (k : K) (t : table) : option trow := find (fun r => keqb (row_key r) k) t.
  Definition with_alt (a : A) (t : table) : option trow := find (fun r => keqb (row_alt r) a) t.

  (** One operation on a table. *)
  Definition table_step (t : table) (o : op) : table * out :=
    match o with
    | OInsert k a v =>
        match with_alt a t, with_key k t with
        | Some _, _ => (t, RInsert (RErr (OccAlt a)))
        | None, Some _ => (t, RInsert (RErr (OccKey k)))
        | None, None => ((k, a, v) :: t, RInsert (ROk tt))
        end
    | OGet k => (t, RVal (option_map row_val (with_key k t)))
    | OGetEntry k => (t, REntry (option_map (fun r => (row_alt r, row_val r)) (with_key k t)))
    | OGetAlt a => (t, RVal (option_map row_val (with_alt a t)))
    | OContains k => (t, RBool (is_some (with_key k t)))
    | OContainsAlt a => (t, RBool (is_some (with_alt a t)))
    | OIsEmpty => (t, RBool (match t with [] => true | _ => false end))
    | OUpdate k f =>
        (map (fun r => if keqb (row_key r) k then (row_key r, row_alt r, f (row_val r)) else r) t,
         RBool (is_some (with_key k t)))
    | ORemove k => (filter (fun r => negb (keqb (row_key r) k)) t, RRow (with_key k t))
    | ODrain p => (filter (fun r => negb (p (row_key r))) t,
                   RRows (sort_by row_key (filter (fun r => p (row_key r)) t)))
    | OIter => (t, RRows (sort_by row_key t))
    | OKeys => (t, RKeys (map row_key (sort_by row_key t)))
    | OAltKeys => (t, RAlts (map row_alt (sort_by row_alt t)))
    end.

  Fixpoint table_run (t : table) (l : list op) : list out :=
    match l with
    | [] => []
    | o :: l' => let '(t', r) := table_step t o in r :: table_run t' l'
    end.

  (** The same operation on the two-map structure of map.rs. *)
  Definition mkm_step (m : mkm K A V) (o : op) : res (mkm K A V * out) :=
    match o with
    | OInsert k a v =>
        r <- mkm_try_insert k a v m ;;
        Done (match r with
              | ROk m' => (m', RInsert (ROk tt))
              | RErr e => (m, RInsert (RErr e))
              end)
    | OGet k => Done (m, RVal (mkm_get k m))
    | OGetEntry k => Done (m, REntry (mkm_get_entry k m))
    | OGetAlt a => Done (m, RVal (mkm_get_alt a m))
    | OContains k => Done (m, RBool (mkm_contains k m))
    | OContainsAlt a => Done (m, RBool (mkm_contains_alt a m))
    | OIsEmpty => Done (m, RBool (mkm_is_empty m))
    | OUpdate k f =>
        Done (match mkm_modify k f m with
              | Some m' => (m', RBool true)
              | None => (m, RBool false)
              end)
    | ORemove k => ' (m', r) <- mkm_remove_entry k m ;; Done (m', RRow r)
    | ODrain p => ' (m', l) <- mkm_drain p m ;; Done (m', RRows l)
    | OIter => l <- mkm_iter m ;; Done (m, RRows l)
    | OKeys => Done (m, RKeys (mkm_keys m))
    | OAltKeys => Done (m, RAlts (mkm_alt_keys m))
    end.

  Fixpoint mkm_run (m : mkm K A V) (l : list op) : res (list out) :=
    match l with
    | [] => Done []
    | o :: l' => ' (m', r) <- mkm_step m o ;; rs <- mkm_run m' l' ;; Done (r :: rs)
    end.

  (** The operations of the deduplicating variant. *)
  Inductive dop :=
  | DInsert (k : K) (a : A) (v : V)
  | DGet (k : K) | DGetAlt (a : A) | DGetEntry (k : K) | DGetEntryAlt (a : A)
  | DContainsAlt (a : A) | DAltKeys | DIter.

  Definition dtable_step (t : table) (o : dop) : table * out :=
    match o with
    | DInsert k a v => table_step t (OInsert k a v)
    | DGet k => table_step t (OGet k)
    | DGetAlt a => table_step t (OGetAlt a)
    | DGetEntry k => table_step t (OGetEntry k)
    | DGetEntryAlt a => (t, REntryAlt (option_map (fun r => (row_key r, row_val r)) (with_alt a t)))
    | DContainsAlt a => table_step t (OContainsAlt a)
    | DAltKeys => table_step t OAltKeys
    | DIter => table_step t OIter
    end.
  Fixpoint dtable_run (t : table) (l : list dop) : list out :=
    match l with
    | [] => []
    | o :: l' => let '(t', r) := dtable_step t o in r :: dtable_run t' l'
    end.

  Definition dmkm_step (m : dmkm K A V) (o : dop) : res (dmkm K A V * out) :=
    match o with
    | DInsert k a v =>
        r <- dmkm_try_insert k a v m ;;
        Done (match r with
              | ROk m' => (m', RInsert (ROk tt))
              | RErr e => (m, RInsert (RErr e))
              end)
    | DGet k => Done (m, RVal (dmkm_get k m))
    | DGetAlt a => Done (m, RVal (dmkm_get_alt a m))
    | DGetEntry k => Done (m, REntry (dmkm_get_entry k m))
    | DGetEntryAlt a => Done (m, REntryAlt (dmkm_get_entry_alt a m))
    | DContainsAlt a => Done (m, RBool (dmkm_contains_alt a m))
    | DAltKeys => Done (m, RAlts (dmkm_alt_keys m))
    | DIter => l <- dmkm_iter m ;; Done (m, RRows l)
    end.
  Fixpoint dmkm_run (m : dmkm K A V) (l : list dop) : res (list out) :=
    match l with
    | [] => Done []
    | o :: l' => ' (m', r) <- dmkm_step m o ;; rs <- dmkm_run m' l' ;; Done (r :: rs)
    end.
End Spec.
Arguments op : clear implicits.
Arguments dop : clear implicits.
Arguments out : clear implicits.
Arguments table : clear implicits.
Arguments trow : clear implicits.
