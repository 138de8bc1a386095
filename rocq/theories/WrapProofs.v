(** * Where 64 bit arithmetic does not matter (C98). *)
From Verif Require Import GoBase CacheModel CacheSpec CacheProofs CacheProofs2 WrapModel.
Local Open Scope Z_scope.

Lemma int64_small z : - 2 ^ 63 <= z < 2 ^ 63 -> int64 z = z.
Proof. intros H. unfold int64. rewrite Z.mod_small; lia. Qed.

Section Wrap.
  Context {D : Type} (dnil : D).
  Implicit Types (c : cache D).
  Lemma clean_agrees c perc now : Z.of_nat (size (c_items c)) * Z.abs perc < 2 ^ 63 -> mclean64 c perc now = mclean c perc now.
  Proof.
    intros H. unfold mclean64, mclean. assert (quota64 (Z.of_nat (size (purge (c_expire c) now (c_items c)))) perc = quota (Z.of_nat (size (purge (c_expire c) now (c_items c)))) perc) as ->; [|done].
    unfold quota64, quota. rewrite int64_small; [done|]. pose proof (purge_size (c_expire c) now (c_items c)). nia.
  Qed.
  Lemma step_agrees c o N : (size (c_items c) <= N)%nat -> (Z.of_nat N + 1) * 10 < 2 ^ 63 ->
    (forall perc now, o = OClean perc now -> Z.of_nat N * Z.abs perc < 2 ^ 63) -> step64 dnil c o = step dnil c o.
  Proof.
    intros Hs HN Ho. destruct o as [k d tc tr now| | | | |perc now|v now order| | |]; try done; simpl.
    - unfold set64, set. rewrite clean_agrees; [done|]. simpl. pose proof (size_insert_le (c_items c) k (Entry tc tr 0 d)). lia.
    - apply clean_agrees. specialize (Ho perc now eq_refl). nia.
    - unfold verify64, verify. rewrite clean_agrees; [done|]. lia.
  Qed.
  Lemma evict_size n : forall pile (items : gmap bytes (entry D)) p items' rest, evict n pile items = (p, items', rest) -> (size items' <= size items)%nat.
  Proof.
    induction n as [|n IH]; intros pile items p items' rest; simpl; [by intros [= <- <- <-]|]. destruct pile as [|k pile]; [by intros [= <- <- <-]|].
    intros H. apply IH in H. destruct (items !! k) eqn:E; [pose proof (size_delete items k _ E); lia|by rewrite delete_notin in H].
  Qed.
  Lemma del_size c k : (size (c_items (del c k)) <= size (c_items c))%nat.
  Proof. simpl. destruct (c_items c !! k) eqn:E; [pose proof (size_delete (c_items c) k _ E); lia|by rewrite delete_notin]. Qed.
  Lemma clean_size c perc now : (size (c_items (mclean c perc now).1) <= size (c_items c))%nat.
  Proof.
    unfold mclean. pose proof (purge_size (c_expire c) now (c_items c)). destruct (evict _ _ _) as [[p it] rest] eqn:E. apply evict_size in E. destruct p; simpl; lia.
  Qed.
  Lemma step_size c o : (size (c_items (step dnil c o).1) <= S (size (c_items c)))%nat.
  Proof.
    destruct o as [k d tc tr now|k dur|k v t1 t2 t3|k| |perc now|v now order| | |]; simpl; try lia.
    - unfold set. pose proof (size_insert_le (c_items c) k (Entry tc tr 0 d)). case_bool_decide; [|simpl; done].
      match goal with |- context [mclean ?x 10 now] => pose proof (clean_size x 10 now) as Hc; destruct (mclean x 10 now) as [c2 r] end. simpl in Hc. destruct r; simpl; lia.
    - unfold set_ttl. destruct (c_items c !! k) as [x|] eqn:E; [|lia]. simpl. rewrite map_size_insert_Some by eauto. lia.
    - unfold get. destruct (c_items c !! k) as [x|] eqn:E; [|simpl; lia]. destruct (rejected _ _ _ _ _ _); [pose proof (del_size c k); simpl in *; lia|]. simpl. rewrite map_size_insert_Some by eauto. lia.
    - pose proof (del_size c k). simpl in *. lia.
    - pose proof (clean_size c perc now). lia.
    - unfold verify. pose proof (clean_size c 0 now) as Hc. destruct (mclean c 0 now) as [c1 r]. simpl in Hc. destruct r; simpl; try lia. destruct v as [f|]; [|simpl; lia].
      assert (forall os c i, (size (c_items (verify_loop f os c i).1) <= size (c_items c))%nat) as Hv.
      { clear. induction os as [|k os IH]; intros c i; [done|]. simpl. destruct (c_items c !! k) as [x|]; [|apply IH]. destruct (f k (e_ctime x)); [apply IH|].
        etrans; [apply IH|]. apply del_size. }
      specialize (Hv (order (c_items c1)) c1 n). destruct (verify_loop _ _ _ _). simpl in *. lia.
    - rewrite map_size_empty. lia.
  Qed.
  Lemma run_agrees_from ops : forall c N P, (size (c_items c) + length ops <= N)%nat -> 0 <= P -> (Z.of_nat N + 1) * Z.max 10 P < 2 ^ 63 ->
    Forall (fun o => match o with OClean perc _ => Z.abs perc <= P | _ => True end) ops -> run64 dnil c ops = run dnil c ops.
  Proof.
    induction ops as [|o ops IH]; intros c N P Hs HP HN Hp; [done|]. apply Forall_cons in Hp as [H1 H2]. simpl in *.
    rewrite (step_agrees c o N); [|lia|nia|intros perc now ->; nia]. pose proof (step_size c o) as Hz. destruct (step dnil c o) as [c1 r]. simpl in *.
    rewrite (IH c1 N P); [done|lia|done|done|done].
  Qed.
  Theorem run_agrees m e P ops : 0 <= P -> (Z.of_nat (length ops) + 1) * Z.max 10 P < 2 ^ 63 ->
    Forall (fun o => match o with OClean perc _ => Z.abs perc <= P | _ => True end) ops -> run64 dnil (new_cache m e) ops = run dnil (new_cache m e) ops.
  Proof. intros HP HN Hp. eapply run_agrees_from; [|done|exact HN|done]. simpl. rewrite map_size_empty. lia. Qed.
  (** A share larger than the pile. *)
  Lemma clean_beyond c perc now : Z.of_nat (length (c_pile c)) < quota64 (Z.of_nat (size (purge (c_expire c) now (c_items c)))) perc ->
    (mclean64 c perc now).2 = RPanic /\ forall k, k ∈ c_pile c -> c_items (mclean64 c perc now).1 !! k = None.
  Proof.
    intros H. unfold mclean64. set (q := quota64 _ _) in *. destruct (evict_panic (Z.to_nat q) (c_pile c) (purge (c_expire c) now (c_items c))) as (i2 & -> & Hl); [lia|].
    split; [done|]. intros k Hk. simpl. rewrite Hl. by rewrite decide_True.
  Qed.
End Wrap.

Lemma negative_panics : (mclean64 three (- 2 ^ 62) (fun _ => 1)).2 = RPanic /\
  forall k, k ∈ map B ["a"; "b"; "c"]%string -> is_Some (c_items three !! k) /\ c_items (mclean64 three (- 2 ^ 62) (fun _ => 1)).1 !! k = None.
Proof.
  assert (c_pile three = map B ["a"; "b"; "c"]%string) as Hp by (by vm_compute).
  destruct (clean_beyond three (- 2 ^ 62) (fun _ => 1)) as [H1 H2]; [by vm_compute|]. split; [done|]. intros k Hk. split; [|apply H2; by rewrite Hp].
  repeat (apply elem_of_cons in Hk as [->|Hk]); [by vm_compute; eexists..|by apply elem_of_nil in Hk].
Qed.
