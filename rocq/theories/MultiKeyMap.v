(** * MultiKeyMap: maps indexed by two keys.

    Model of /repo/minter/src/map.rs. *)

From Verif Require Import Base BMap.

(** map.rs 25-32 [MultiKeyMap] *)
Record mkm (K A V : Type) : Type := Mkm {
  by_alt : bmap A V;
  by_key : bmap K A
}.
Arguments Mkm {K A V} by_alt by_key.
Arguments by_alt {K A V} m.
Arguments by_key {K A V} m.

(** map.rs 34-48 [OccupiedKey] (the [value] field of [OccupiedError] hands the
    argument back to the caller; every caller in the code drops it). *)
Inductive occupied (K A : Type) : Type :=
| OccKey (k : K)
| OccAlt (a : A).
Arguments OccKey {K A} k.
Arguments OccAlt {K A} a.

Section Mkm.
  Context {K A V : Type} `{OrdK : Ord K} `{OrdA : Ord A}.
  Notation t := (mkm K A V).

  (** map.rs 51-56 [new] *)
  Definition mkm_new : t := Mkm [] [].

  (** map.rs 58-60 [is_empty] *)
  Definition mkm_is_empty (m : t) : bool :=
    match by_key m with [] => true | _ => false end.

  (** map.rs 62-86 [try_insert]. The two assertions at lines 83-84 restate the two
      checks just made; they are kept. *)
  Definition mkm_try_insert (k : K) (a : A) (v : V) (m : t)
    : res (result t (occupied K A)) :=
    if bmem a (by_alt m) then Done (RErr (OccAlt a))
    else if bmem k (by_key m) then Done (RErr (OccKey k))
    else
      _ <- rassert (negb (bmem a (by_alt m))) "map.rs:83" ;;
      _ <- rassert (negb (bmem k (by_key m))) "map.rs:84" ;;
      Done (ROk (Mkm (binsert a v (by_alt m)) (binsert k a (by_key m)))).

  (** map.rs 88-96 [get] *)
  Definition mkm_get (k : K) (m : t) : option V :=
    obind (bget k (by_key m)) (fun a => bget a (by_alt m)).

  (** map.rs 98-106 [get_entry] *)
  Definition mkm_get_entry (k : K) (m : t) : option (A * V) :=
    obind (bget k (by_key m))
      (fun a => match bget a (by_alt m) with Some v => Some (a, v) | None => None end).

  (** map.rs 108-116 [get_mut] followed by a write [f] through the reference;
      [None] when [get_mut] returns [None]. *)
  Definition mkm_modify (k : K) (f : V -> V) (m : t) : option t :=
    obind (bget k (by_key m))
      (fun a => match bget a (by_alt m) with
                | Some v => Some (Mkm (binsert a (f v) (by_alt m)) (by_key m))
                | None => None
                end).

  (** map.rs 118-124 [get_alt] *)
  Definition mkm_get_alt (a : A) (m : t) : option V := bget a (by_alt m).

  (** map.rs 126-132 [contains] *)
  Definition mkm_contains (k : K) (m : t) : bool := bmem k (by_key m).

  (** map.rs 134-140 [contains_alt] *)
  Definition mkm_contains_alt (a : A) (m : t) : bool := bmem a (by_alt m).

  (** map.rs 144-148 [iter]: ascending primary key; indexing a missing alternative
      key panics. *)
  Definition mkm_iter_from (ks : list (K * A)) (alts : bmap A V) : res (list (K * A * V)) :=
    fold_right
      (fun ka acc =>
         v <- expect (bget (snd ka) alts) "map.rs:147 index" ;;
         l <- acc ;;
         Done ((fst ka, snd ka, v) :: l))
      (Done []) ks.
  Definition mkm_iter (m : t) : res (list (K * A * V)) :=
    mkm_iter_from (by_key m) (by_alt m).

  (** map.rs 150-152 [keys] *)
  Definition mkm_keys (m : t) : list K := bkeys (by_key m).

  (** map.rs 154-156 [alt_keys] *)
  Definition mkm_alt_keys (m : t) : list A := bkeys (by_alt m).

  (** map.rs 158-170 [remove_entry] *)
  Definition mkm_remove_entry (k : K) (m : t) : res (t * option (K * A * V)) :=
    match bget k (by_key m) with
    | None => Done (m, None)
    | Some a =>
        v <- expect (bget a (by_alt m)) "BUG: missing foreign key" ;;
        Done (Mkm (bremove a (by_alt m)) (bremove k (by_key m)), Some (k, a, v))
    end.

  (** map.rs 173-197 [drain] *)
  Definition mkm_drain (p : K -> bool) (m : t) : res (t * list (K * A * V)) :=
    rfold
      (fun st k =>
         let '(m, out) := st in
         a <- expect (bget k (by_key m)) "BUG: missing primary key" ;;
         v <- expect (bget a (by_alt m)) "BUG: missing foreign key" ;;
         Done (Mkm (bremove a (by_alt m)) (bremove k (by_key m)), out ++ [(k, a, v)]))
      (m, []) (filter p (mkm_keys m)).
End Mkm.

(** map.rs 227-318 [DedupMultiKeyMap]: the primary key is stored with the value. *)
Definition dmkm (K A V : Type) : Type := mkm K A (K * V).

Section Dmkm.
  Context {K A V : Type} `{OrdK : Ord K} `{OrdA : Ord A}.

  (** map.rs 243-262 [try_insert] *)
  Definition dmkm_try_insert (k : K) (a : A) (v : V) (m : dmkm K A V)
    : res (result (dmkm K A V) (occupied K A)) :=
    mkm_try_insert k a (k, v) m.
  (** map.rs 261-267 [get] *)
  Definition dmkm_get (k : K) (m : dmkm K A V) : option V := option_map snd (mkm_get k m).
  (** map.rs 269-275 [get_alt] *)
  Definition dmkm_get_alt (a : A) (m : dmkm K A V) : option V := option_map snd (mkm_get_alt a m).
  (** map.rs 277-285 [get_entry] *)
  Definition dmkm_get_entry (k : K) (m : dmkm K A V) : option (A * V) :=
    option_map (fun x => (fst x, snd (snd x))) (mkm_get_entry k m).
  (** map.rs 287-293 [get_entry_alt] *)
  Definition dmkm_get_entry_alt (a : A) (m : dmkm K A V) : option (K * V) := mkm_get_alt a m.
  (** map.rs 295-301 [contains_alt] *)
  Definition dmkm_contains_alt (a : A) (m : dmkm K A V) : bool := mkm_contains_alt a m.
  (** map.rs 303-305 [alt_keys] *)
  Definition dmkm_alt_keys (m : dmkm K A V) : list A := mkm_alt_keys m.
  (** map.rs 307-311 [iter] *)
  Definition dmkm_iter (m : dmkm K A V) : res (list (K * A * V)) :=
    l <- mkm_iter m ;; Done (map (fun x => (fst x, snd (snd x))) l).
End Dmkm.
