(** * C39 the two-key map behaves like a table *)

From Verif Require Import Base BMap MultiKeyMap MultiKeyMapFacts MapSpec MapRefine.

(** C39. For every sequence of operations, starting from the empty map, the structure of
    map.rs never panics and answers exactly like the plain table of MapSpec. *)
Theorem C39_multi_key_map_is_a_table :
  forall (K A V : Type) (OrdK : Ord K) (OrdA : Ord A) (ops : list (op K A V)),
    mkm_run mkm_new ops = Done (table_run [] ops).
Proof. intros. apply mkm_run_refines, rel_new. Qed.
Print Assumptions C39_multi_key_map_is_a_table.

(** C39 (deduplicating variant). *)
Theorem C39_dedup_multi_key_map_is_a_table :
  forall (K A V : Type) (OrdK : Ord K) (OrdA : Ord A) (ops : list (dop K A V)),
    dmkm_run mkm_new ops = Done (dtable_run [] ops).
Proof. intros. apply dmkm_run_refines. exact rel_new. Qed.
Print Assumptions C39_dedup_multi_key_map_is_a_table.

(** Both keys of the table stay unique, so a lookup by either key finds the one row. *)
Theorem C39_table_keys_unique :
  forall (K A V : Type) (OrdK : Ord K) (OrdA : Ord A) (ops : list (op K A V)),
    let t := fold_left (fun t o => fst (table_step t o)) ops [] in
    NoDup (map row_key t) /\ NoDup (map row_alt t).
Proof. intros. apply table_keys_unique. Qed.
Print Assumptions C39_table_keys_unique.

(** A run with a refused insertion, an update, an ordered iteration and a drain. *)
Example C39_witness :
  mkm_run (K := N) (A := N) (V := N) mkm_new
    [OInsert 5 50 500; OInsert 3 30 300; OInsert 5 51 0; OInsert 6 30 0; OUpdate 3 (N.add 1);
     OIter; OGetAlt 50; ODrain (fun k => k <? 4); OKeys] =
  Done [RInsert (ROk tt); RInsert (ROk tt); RInsert (RErr (OccKey 5)); RInsert (RErr (OccAlt 30));
        RBool true; RRows [(3, 30, 301); (5, 50, 500)]; RVal (Some 500); RRows [(3, 30, 301)];
        RKeys [5]].
Proof. vm_compute. reflexivity. Qed.
