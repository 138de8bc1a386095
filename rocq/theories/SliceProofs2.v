(** * The list functions of the cache model are the steps of the recency list (C96). *)
From Verif Require Import GoBase CacheModel SliceModel SliceSpec.

Lemma remove_first_step k xs : pile_step xs (PRemove k) (remove_first k xs) [].
Proof.
  destruct (decide (k ∈ xs)) as [Hk|Hk].
  - assert (exists us vs, xs = us ++ k :: vs /\ k ∉ us) as (us & vs & -> & Hu).
    { clear -Hk. induction xs as [|x xs IH]; [by apply not_elem_of_nil in Hk|]. destruct (decide (x = k)) as [->|Hn]; [exists [], xs; split; [done|apply not_elem_of_nil]|].
      apply elem_of_cons in Hk as [->|Hk]; [done|]. destruct (IH Hk) as (us & vs & -> & H). exists (x :: us), vs. split; [done|]. apply not_elem_of_cons. by split. }
    assert (remove_first k (us ++ k :: vs) = us ++ vs) as ->; [|by constructor].
    clear Hk. induction us as [|u us IH]; simpl; [by rewrite decide_True|]. apply not_elem_of_cons in Hu as [H1 H2]. rewrite decide_False by congruence. by rewrite IH.
  - assert (remove_first k xs = xs) as ->; [|by apply ps_absent].
    induction xs as [|x xs IH]; [done|]. apply not_elem_of_cons in Hk as [H1 H2]. simpl. rewrite decide_False by congruence. by rewrite IH.
Qed.
Lemma evict_step {E} n : forall xs (items : gmap bytes E) p items' rest, evict n xs items = (p, items', rest) ->
  if p then length xs < n
  else exists ks, pile_step xs (PEvict n) rest ks /\ forall k, items' !! k = if decide (k ∈ ks) then None else items !! k.
Proof.
  induction n as [|n IH]; intros xs items p items' rest; simpl.
  - intros [= <- <- <-]. exists []. split; [apply (ps_evict [])|]. intros k. rewrite decide_False; [done|apply not_elem_of_nil].
  - destruct xs as [|x xs]; [intros [= <- <- <-]; simpl; lia|]. intros H. apply IH in H. destruct p; [simpl; lia|]. destruct H as (ks & Hs & Hi).
    inversion Hs; subst. exists (x :: ks). split; [apply (ps_evict (x :: ks))|]. intros k. rewrite Hi. destruct (decide (k ∈ x :: ks)) as [Hk|Hk].
    + destruct (decide (k ∈ ks)); [done|]. apply elem_of_cons in Hk as [->|?]; [by rewrite lookup_delete|done].
    + apply not_elem_of_cons in Hk as [H1 H2]. rewrite decide_False by done. by rewrite lookup_delete_ne.
Qed.
