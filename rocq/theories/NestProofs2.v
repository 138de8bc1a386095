(** * Validators that call the cache: the Verify that need not end, and witnesses. *)
From Verif Require Import GoBase CacheModel CacheProofs CacheConc CacheConcProofs CacheConcSpec CacheConcProofs2 SettingsSpec NestSpec NestProofs.
From Coq Require Import Lia ZifyBool ZifyNat.
Local Open Scope Z_scope.

Section Endless.
  Context {D : Type} (dnil dv : D) (f : bytes -> Z -> bool).
  Definition stores_more (k : bytes) (z : Z) : vprog D := Do (CSet (k ++ B "x") dv) (fun _ => Says true).

  Definition longest (g : config D) (K : bytes) (x : positive) : Prop :=
    exists start visited i, g_threads g 0%nat = Some (CVerify (Some f), VLoop (length (h_gone (g_shared g))) start visited i) /\
      g_threads g 1%nat = None /\ h_max (g_shared g) = 0 /\ h_items (g_shared g) !! K = Some x /\ is_Some (h_heap (g_shared g) !! x) /\
      (forall k, is_Some (visited !! k) -> (length k < length K)%nat) /\
      (forall k, is_Some (h_items (g_shared g) !! k) -> (length k <= length K)%nat).

  Lemma endless n : forall g K x, longest g K x -> exists acts g' K' x', steps_run dnil stores_more 0 g acts g' /\ (n <= length acts)%nat /\ longest g' K' x'.
  Proof.
    induction n as [|n IH]; intros g K x HL.
    { exists [], g, K, x. split_and!; [constructor|simpl; lia|done]. }
    destruct HL as (start & visited & i & Ht & Ht1 & Hmx & HK & [e He] & Hvis & Hits).
    destruct g as [s th]. simpl in *.
    set (i1 := Input 1 0 0 (fun _ => 0) (Some K) None None : input).
    set (p1 := VVal K x (length (h_gone s)) start (<[K := x]> visited) i : pc D).
    set (g1 := Config s (upd th 0 (Some (CVerify (Some f), p1)))).
    assert (Hs1 : cstep dnil (Config s th) (AStep 0 i1) = Some (g1, LTau 0)).
    { simpl. rewrite Ht. simpl. unfold map_no. rewrite decide_True by done. rewrite HK. rewrite decide_False; [done|].
      intros Hv. assert (length K < length K)%nat; [|lia]. apply Hvis. by exists x. }
    assert (Hq1 : asks (Config s th) (AStep 0 i1) = []) by (unfold asks; simpl; by rewrite Ht).
    set (i2 := Input 1 0 0 (fun _ => 0) None None (Some Yes) : input).
    assert (Hq2 : asks g1 (AStep 0 i2) = [(0%nat, K, e_ctime e, Yes)]) by (unfold asks; simpl; rewrite ?upd_same; simpl; by rewrite He).
    assert (exists y, h_heap s !! y = None) as [y Hy].
    { exists (fresh (dom (h_heap s)) : positive). apply not_elem_of_dom. apply is_fresh. }
    set (K2 := (K ++ B "x") : bytes).
    assert (HK2 : length K2 = S (length K)) by (unfold K2; rewrite app_length; simpl; lia).
    assert (Hno : h_items s !! K2 = None).
    { destruct (h_items s !! K2) eqn:E; [|done]. assert (length K2 <= length K)%nat; [|lia]. apply Hits. by eexists. }
    set (i3 := Input y 0 0 (fun _ => 0) None None None : input).
    set (s2 := Shared (h_max s) (h_expire s) (<[y := Entry 0 0 0 dv]> (h_heap s)) (<[K2 := y]> (h_items s)) (h_pile s ++ [K2]) (h_gone s)).
    assert (Hset : cset s K2 dv i3 = (s2, RUnit)).
    { unfold cset. replace (h_items s !! K2) with (@None positive) by done. rewrite bool_decide_eq_false_2; [|unfold reads; simpl; lia]. simpl. done. }
    set (g2 := Config s (upd (g_threads g1) 1 (Some (CSet K2 dv, Start)))).
    set (g3 := Config s2 (upd (g_threads g2) 1 (Some (CSet K2 dv, Exit RUnit)))).
    set (g4 := Config s2 (upd (g_threads g3) 1 None)).
    assert (Hp : prog_runs dnil stores_more 1 (stores_more K (e_ctime e)) g1 [AInv 1 (CSet K2 dv); AStep 1 i3; ARet 1] g4 Yes).
    { change [AInv 1 (CSet K2 dv); AStep 1 i3; ARet 1] with ((AInv 1 (CSet K2 dv) :: [AStep 1 i3] ++ [ARet 1]) ++ []).
      apply (pr_do dnil stores_more 1 _ _ g1 _ g4 RUnit); [|done|apply (pr_says dnil stores_more 1 true)].
      eapply (cr dnil stores_more 1 _ g1 g2 _ _ g3); [done|simpl; rewrite ?upd_other by done; by rewrite Ht1| |simpl; by rewrite ?upd_same].
      eapply (sr_plain dnil stores_more 1 g2 i3 g3); [unfold asks; simpl; by rewrite ?upd_same|done|simpl; rewrite ?upd_same; simpl; by rewrite Hy, Hset|constructor]. }
    set (g5 := Config s2 (upd (g_threads g4) 0 (Some (CVerify (Some f), VLoop (length (h_gone s)) start (<[K := x]> visited) i)))).
    assert (Hs5 : cstep dnil g4 (AStep 0 i2) = Some (g5, LTau 0)).
    { simpl. rewrite ?upd_other by done. rewrite ?upd_same. simpl. rewrite lookup_insert_ne by (intros ->; congruence). by rewrite He. }
    destruct (IH g5 K2 y) as (acts & g' & K' & x' & Hr & Hlen & HL).
    { exists start, (<[K := x]> visited), i. simpl. rewrite ?upd_same. split_and!; [done| | |by rewrite lookup_insert|rewrite lookup_insert; by eexists| |].
      - simpl; by rewrite ?upd_other, ?upd_same by done.
      - done.
      - intros k [z Hz]. destruct (decide (k = K)) as [->|]; [lia|]. rewrite lookup_insert_ne in Hz by done. assert (length k < length K)%nat; [|lia]. by apply Hvis.
      - intros k [z Hz]. destruct (decide (k = K2)) as [->|]; [lia|]. rewrite lookup_insert_ne in Hz by done. assert (length k <= length K)%nat; [|lia]. by apply Hits. }
    exists (AStep 0 i1 :: [AInv 1 (CSet K2 dv); AStep 1 i3; ARet 1] ++ AStep 0 i2 :: acts), g', K', x'. split_and!; [|simpl; lia|done].
    eapply sr_plain; [done|done|exact Hs1|]. eapply sr_ask; [exact Hq2|done|exact Hp|exact Hs5|exact Hr].
  Qed.

  Lemma longest_key (m : gmap bytes positive) : m <> ∅ -> exists K x, m !! K = Some x /\ forall k, is_Some (m !! k) -> (length k <= length K)%nat.
  Proof.
    induction m as [|k x m Hk IH] using map_ind; [done|]. intros _. destruct (decide (m = ∅)) as [->|Hne].
    - exists k, x. split; [by rewrite lookup_insert|]. intros k' [y Hy]. apply lookup_insert_Some in Hy as [[<- _]|[_ Hy]]; [done|by rewrite lookup_empty in Hy].
    - destruct (IH Hne) as (K & y & HK & Hmax). destruct (decide (length k <= length K)%nat) as [Hle|Hgt].
      + exists K, y. split; [rewrite lookup_insert_ne; [done|intros ->; discriminate (eq_trans (eq_sym Hk) HK)]|].
        intros k' [z Hz]. apply lookup_insert_Some in Hz as [[<- _]|[_ Hz]]; [done|]. apply Hmax. by exists z.
      + exists k, x. split; [by rewrite lookup_insert|].
        intros k' [z Hz]. apply lookup_insert_Some in Hz as [[<- _]|[_ Hz]]; [done|]. assert (length k' <= length K)%nat; [|lia]. apply Hmax. by exists z.
  Qed.
  Lemma verify_endless mx ex acts0 g0 tr0 n :
    exec dnil (cinit mx ex) acts0 = Some (g0, tr0) -> h_max (g_shared g0) = 0 -> h_expire (g_shared g0) = 0 -> h_items (g_shared g0) <> ∅ ->
    g_threads g0 0%nat = None -> g_threads g0 1%nat = None ->
    exists g1 acts g', cstep dnil g0 (AInv 0 (CVerify (Some f))) = Some (g1, LInv 0 (CVerify (Some f))) /\
      steps_run dnil stores_more 0 g1 acts g' /\ (n <= length acts)%nat /\ cstep dnil g' (ARet 0) = None.
  Proof.
    intros He Hm Hx Hne Ht0 Ht1. pose proof (exec_allocated _ _ _ _ _ _ He) as Ha. clear He. destruct g0 as [s th]. simpl in *.
    destruct (longest_key _ Hne) as (K & x & HK & Hmax). rewrite Ht0.
    set (ic := Input 1 0 0 (fun _ => 0) None None None : input).
    set (g1 := Config s (upd th 0 (Some (CVerify (Some f), Start)))).
    set (g2 := Config s (upd (g_threads g1) 0 (Some (CVerify (Some f), VRange 0)))).
    set (g3 := Config s (upd (g_threads g2) 0 (Some (CVerify (Some f), VLoop (length (h_gone s)) (h_items s) ∅ 0)))).
    destruct (endless n g3 K x) as (acts & g' & K' & x' & Hr & Hlen & HL).
    { exists (h_items s), ∅, 0. simpl. split_and!; try done.
      - destruct (Ha _ _ HK) as [e ->]. by eexists.
      - intros k [z Hz]. by rewrite lookup_empty in Hz. }
    exists g1, (AStep 0 ic :: AStep 0 ic :: acts), g'. split_and!; [done| |simpl; lia|].
    - eapply (sr_plain dnil stores_more 0 g1 ic g2); [done|done| |eapply (sr_plain dnil stores_more 0 g2 ic g3); [done|done|done|done]].
      simpl. unfold cclean. simpl. rewrite decide_True by done. unfold quota. rewrite Z.mul_0_r. simpl. by destruct s.
    - destruct HL as (? & ? & ? & Ht & _). simpl. by rewrite Ht.
  Qed.
End Endless.

(** ** A schedule *)
(** Entries created before 5 are rejected, but the validator of "a" first flushes the cache and stores "b" anew. *)
Definition reloads (k : bytes) (z : Z) : vprog Z :=
  if decide (k = B "a") then Do CFlush (fun _ => Do (CSet (B "b") 20) (fun _ => Says true)) else Says (5 <=? z).
Definition reload_store : list (action Z) :=
  let i x t := Input x t t (fun _ => t) None None None in
  [AInv 0 (CSet (B "a") 1); AStep 0 (i 1%positive 0); ARet 0; AInv 0 (CSet (B "b") 2); AStep 0 (i 2%positive 0); ARet 0].
Definition reload_sched : list (action Z) :=
  let i := Input 1 9 9 (fun _ => 9) None None None in
  let at_ k := Input 1 9 9 (fun _ => 9) (Some (B k)) None None in
  let new := Input 3 9 9 (fun _ => 9) None None None in
  let says w := Input 1 9 9 (fun _ => 9) None None (Some w) in
  [AStep 0 i; AStep 0 i; AStep 0 (at_ "a"); AStep 1 i; ARet 1; AStep 1 new; ARet 1; AStep 0 (says Yes);
   AStep 0 (at_ "b"); AStep 0 (says No); AStep 0 i; AStep 0 i; ARet 0].
Lemma reload_lost : exists g0 tr0 acts g1,
  exec 0 (cinit 0 0) reload_store = Some (g0, tr0) /\
  call_runs 0 reloads 0 (CVerify (Some (fun _ _ => true))) g0 acts g1 (RInt 1) /\
  h_items (g_shared g1) = ∅ /\ h_heap (g_shared g1) !! 3%positive = Some (Entry 9 9 0 20) /\ reloads (B "b") 9 = Says true.
Proof.
  assert (H : match exec 0 (cinit 0 0) reload_store with
    | Some (g0, _) => match follow 0 reloads 20 0 (TCall (CVerify (Some (fun _ _ => true)))) g0 reload_sched with
        | Some (g1, DCall (RInt n), []) => n = 1 /\ map_to_list (h_items (g_shared g1)) = [] /\ h_heap (g_shared g1) !! 3%positive = Some (Entry 9 9 0 20)
        | _ => False end
    | None => False end) by (vm_compute; split_and!; reflexivity).
  destruct (exec 0 (cinit 0 0) reload_store) as [[g0 tr0]|] eqn:E; [|done].
  destruct (follow _ _ _ _ _ _ _) as [[[g1 [|[]|]] []]|] eqn:E2; try done. destruct H as (-> & H1%map_to_list_empty_iff & H2).
  apply follow_sound in E2 as [acts Hr]. exists g0, tr0, acts, g1. done.
Qed.
