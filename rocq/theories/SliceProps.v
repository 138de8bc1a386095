(** * Property theorems about slices and their arrays (C96). *)
From Verif Require Import GoBase DatasetModel DatasetSpec CacheModel SliceModel SliceSpec SliceProofs SliceProofs2.

(** ** C96 *)
(** Whatever the growth policy of append, a program over any number of collections (and clones) answers what independent lists answer,
    fails when they do, and leaves them in the variables: reused array cells are never seen through another collection. *)
Theorem C96_collections : forall grow os, Forall no_copy os ->
  (forall ls rs, lists_run False ∅ os ls rs -> exists m vars, mrun grow ∅ ∅ os = Ok (m, vars, rs) /\ view m <$> vars = ls) /\
  (forall m vars rs, mrun grow ∅ ∅ os = Ok (m, vars, rs) -> lists_run False ∅ os (view m <$> vars) rs).
Proof. exact collections_are_lists. Qed.
Print Assumptions C96_collections.
(** The recency list of the cache, removal in place included, is a list. *)
Theorem C96_recency_list : forall grow os,
  (forall ys rs, pile_run [] os ys rs -> exists m s, prun grow ∅ nil_slice os = Some (m, s, rs) /\ view m s = ys) /\
  (forall m s rs, prun grow ∅ nil_slice os = Some (m, s, rs) -> pile_run [] os (view m s) rs).
Proof. exact pile_is_a_list. Qed.
Print Assumptions C96_recency_list.
(** The functions of the cache model are its steps. *)
Theorem C96_remove : forall k xs, pile_step xs (PRemove k) (remove_first k xs) [].
Proof. exact remove_first_step. Qed.
Print Assumptions C96_remove.
Theorem C96_evict : forall E n xs (items : gmap bytes E) p items' rest, evict n xs items = (p, items', rest) ->
  if p then length xs < n
  else exists ks, pile_step xs (PEvict n) rest ks /\ forall k, items' !! k = if decide (k ∈ ks) then None else items !! k.
Proof. exact @evict_step. Qed.
Print Assumptions C96_evict.
(** A collection copied by assignment is not independent: removing and adding at the original changes an element of the copy, whatever the growth policy. *)
Theorem C96_copy_refuted : forall a b c : option loc, exists os, forall grow, exists m vars,
  mrun grow ∅ ∅ os = Ok (m, vars, [None; Some DUnit; Some DUnit; None; Some (DElement b); Some DUnit; Some (DFound c)]) /\
  exists ls, lists_run True ∅ os ls [None; Some DUnit; Some DUnit; None; Some (DElement b); Some DUnit; Some (DFound b)].
Proof. exact copies_are_not_lists. Qed.
Print Assumptions C96_copy_refuted.

(** Two collections and a clone; the array of the first is reused after a Pop. *)
Example C96_example : exists m vars,
  mrun (fun c _ => 2 * c) ∅ ∅ [MNew 0; MDo 0 (DPush (Some 1%positive)); MDo 0 (DPush (Some 2%positive)); MClone 0 1 [Some 3%positive; Some 4%positive];
    MDo 0 DPop; MDo 0 (DPush None); MDo 1 (DUnshift (Some 5%positive)); MDo 1 DShift; MDo 0 (DGet 1); MDo 1 DCount] =
    Ok (m, vars, [None; Some DUnit; Some DUnit; None; Some (DElement (Some 2%positive)); Some DUnit; Some DUnit; Some (DElement (Some 5%positive)); Some (DFound None); Some (DNumber 2)]) /\
  (view m <$> vars) !! 0 = Some [Some 1%positive; None] /\ (view m <$> vars) !! 1 = Some [Some 3%positive; Some 4%positive].
Proof. eexists _, _. split; [vm_compute; reflexivity|]. by vm_compute. Qed.
(** Removal in place leaves the array with the last key twice; the slice does not show it. *)
Example C96_pile_example : exists m s, prun (fun c _ => 2 * c) ∅ nil_slice [PAppend (B "a"); PAppend (B "b"); PAppend (B "c"); PRemove (B "a"); PAppend (B "a"); PEvict 1] =
  Some (m, s, [[]; []; []; []; []; [B "b"]]) /\ view m s = [B "c"; B "a"].
Proof. eexists _, _. split; [vm_compute; reflexivity|]. by vm_compute. Qed.
