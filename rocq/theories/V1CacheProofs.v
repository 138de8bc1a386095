(** * The cache of version 1 against the cache of version 2. *)
From Verif Require Import GoBase CacheModel V1Cache.
Local Open Scope Z_scope.

Section Sim.
  Context {D : Type} (dnil : D).
  Definition raise (x : entry1 D) : entry D := Entry (e1_ctime x) (e1_rtime x) 0 (e1_data x).
  Definition lift (c : cache1 D) : cache D := Cache (c1_max c) (c1_expire c) (raise <$> c1_items c) (c1_pile c).
  Lemma down_raise (m : gmap bytes (entry1 D)) : down <$> (raise <$> m) = m.
  Proof. rewrite <- map_fmap_compose. rewrite <- (map_fmap_id m) at 2. apply map_fmap_ext. by intros k [] _. Qed.

  Lemma purge_raise (ex : Z) (now : bytes -> Z) (m : gmap bytes (entry1 D)) : purge ex now (raise <$> m) = raise <$> purge1 ex now m.
  Proof. unfold purge, purge1. case_decide; [done|]. by rewrite map_filter_fmap. Qed.
  Lemma evict_fmap {A C} (g : A -> C) (n : nat) (pile : list bytes) (m : gmap bytes A) :
    evict n pile (g <$> m) = ((evict n pile m).1.1, g <$> (evict n pile m).1.2, (evict n pile m).2).
  Proof.
    revert pile m. induction n as [|n IH]; intros pile m; [done|]. destruct pile as [|k pile]; [done|].
    simpl. by rewrite <- fmap_delete, IH.
  Qed.
  Lemma size_raise (m : gmap bytes (entry1 D)) : size (raise <$> m) = size m.
  Proof. apply map_size_fmap. Qed.
  Lemma mclean_lift c p (now : bytes -> Z) : mclean (lift c) p now = (lift (clean1 c p now).1, (clean1 c p now).2).
  Proof.
    unfold mclean, clean1. cbn [lift c_items c_expire c_pile c_max].
    rewrite purge_raise, size_raise, evict_fmap.
    destruct (evict _ (c1_pile c) (purge1 _ now (c1_items c))) as [[b m] rest]. cbn [fst snd]. by destruct b.
  Qed.
  Lemma step_lift c o : no_validation o ->
    step dnil (lift c) (up o) = (lift (step1 dnil c o).1, (step1 dnil c o).2).
  Proof.
    intros Hn. destruct o as [k d tc tr now|k v t2 t3|k| |p now|v now order| |m|e]; cbn [step step1 up].
    - unfold set, set1. cbn [lift c_items c_expire c_pile c_max].
      replace (<[k := Entry tc tr 0 d]> (raise <$> c1_items c)) with (raise <$> <[k := Entry1 tc tr d]> (c1_items c))
        by (rewrite fmap_insert; done).
      rewrite size_raise.
      replace (bool_decide (is_Some ((raise <$> c1_items c) !! k))) with (bool_decide (is_Some (c1_items c !! k)))
        by (apply bool_decide_ext; rewrite lookup_fmap, fmap_is_Some; done).
      destruct (bool_decide (c1_max c > 0 /\ _)); [|done].
      set (c1 := Cache1 _ _ _ _).
      change (Cache _ _ _ _) with (lift c1). rewrite mclean_lift. destruct (clean1 c1 10 now) as [c2 []]; done.
    - unfold get, get1. cbn [lift c_items c_expire c_pile c_max]. rewrite lookup_fmap.
      destruct (c1_items c !! k) as [x|]; [|done]. cbn [fmap option_fmap option_map]. unfold rejected.
      cbn [raise e_ctime e_ttl e_data e_rtime]. replace (bool_decide (0%Z = 0%Z)) with true by done. cbn [negb andb orb].
      assert (Hd : del (lift c) k = lift (del1 c k)) by (unfold del, lift, del1; cbn; by rewrite fmap_delete).
      assert (Hi : <[k := Entry (e1_ctime x) t3 0 (e1_data x)]> (raise <$> c1_items c) =
                   raise <$> <[k := Entry1 (e1_ctime x) t3 (e1_data x)]> (c1_items c)) by (rewrite fmap_insert; done).
      destruct v as [f|]; [destruct (f k (e1_ctime x))|]; cbn [negb orb]; rewrite ?Hd; try done.
      all: destruct (negb (bool_decide (c1_expire c = 0)) && before_now (e1_ctime x) (c1_expire c) t2); rewrite ?Hd; try done.
      all: unfold lift; cbn; by rewrite Hi.
    - unfold del, lift. cbn. by rewrite fmap_delete.
    - cbn. by rewrite size_raise.
    - apply mclean_lift.
    - destruct v; [done|]. unfold verify, verify1. rewrite mclean_lift. by destruct (clean1 c 0 now) as [c2 []].
    - unfold flush, lift. cbn. by rewrite fmap_empty.
    - done.
    - done.
  Qed.
  Lemma run_lift c ops : Forall no_validation ops ->
    (run dnil (lift c) (map up ops)).1 = lift (run1 dnil c ops).1 /\ (run dnil (lift c) (map up ops)).2.*2 = (run1 dnil c ops).2.
  Proof.
    intros Hf. revert c. induction Hf as [|o ops Ho _ IH]; intros c; [done|]. cbn [map run run1].
    rewrite step_lift by done. destruct (step1 dnil c o) as [c1 r]. cbn [fst snd]. specialize (IH c1).
    destruct (run dnil (lift c1) (map up ops)) as [c2 tr], (run1 dnil c1 ops) as [c3 rs]. cbn [fst snd] in *.
    destruct IH as [-> <-]. done.
  Qed.
  Lemma new_lift mx ex : lift (new_cache1 mx ex) = new_cache mx ex.
  Proof. unfold lift, new_cache, new_cache1. cbn. by rewrite fmap_empty. Qed.
  Lemma v1_same_answers mx ex ops : Forall no_validation ops ->
    (run1 dnil (new_cache1 mx ex) ops).2 = (run dnil (new_cache mx ex) (map up ops)).2.*2.
  Proof. intros Hf. rewrite <- new_lift. symmetry. by apply run_lift. Qed.

  (** Verify with a validator: the same items and the same number. *)
  Lemma verify_loop_lift f order c c2 i : c_items c2 = raise <$> c1_items c ->
    let a := verify_loop f order c2 i in let b := verify_loop1 f order c i in
    c_items a.1 = raise <$> c1_items b.1 /\ a.2 = b.2 /\ c1_pile b.1 = c1_pile c.
  Proof.
    revert c c2 i. induction order as [|k order IH]; intros c c2 i Hi; [done|]. cbn [verify_loop verify_loop1].
    rewrite Hi, lookup_fmap. destruct (c1_items c !! k) as [x|]; [|by apply IH]. cbn [fmap option_fmap option_map raise e_ctime].
    destruct (f k (e1_ctime x)); [by apply IH|].
    destruct (IH (Cache1 (c1_max c) (c1_expire c) (delete k (c1_items c)) (c1_pile c)) (del c2 k) (i + 1)) as (H1 & H2 & H3); [|done].
    cbn. by rewrite Hi, fmap_delete.
  Qed.
  Lemma loop_expire f order c i : c1_expire (verify_loop1 (D:=D) f order c i).1 = c1_expire c.
  Proof.
    revert c i. induction order as [|k order IH]; intros c i; [done|]. cbn [verify_loop1].
    destruct (c1_items c !! k) as [x|]; [|done]. destruct (f k (e1_ctime x)); [done|]. by rewrite IH.
  Qed.
  Lemma loop_expire2 f order c i : c_expire (verify_loop (D:=D) f order c i).1 = c_expire c.
  Proof.
    revert c i. induction order as [|k order IH]; intros c i; [done|]. cbn [verify_loop].
    destruct (c_items c !! k) as [x|]; [|done]. destruct (f k (e_ctime x)); [done|]. by rewrite IH.
  Qed.
  Lemma v1_verify mx ex ops f (now : bytes -> Z) order : Forall no_validation ops ->
    let c1 := (run1 dnil (new_cache1 mx ex) ops).1 in let c2 := (run dnil (new_cache mx ex) (map up ops)).1 in
    let a1 := step1 dnil c1 (V1Verify (Some f) now order) in let a2 := step dnil c2 (up (V1Verify (Some f) now order)) in
    a1.2 = a2.2 /\
    (step1 dnil a1.1 V1Count).2 = (step dnil a2.1 OCount).2 /\
    forall k v t2 t3, (step1 dnil a1.1 (V1Get k v t2 t3)).2 = (step dnil a2.1 (up (V1Get k v t2 t3))).2.
  Proof.
    intros Hf c1 c2 a1 a2.
    assert (Hc : c2 = lift c1) by (subst c1 c2; rewrite <- new_lift; by apply run_lift).
    assert (Hs : a1.2 = a2.2 /\ c_items a2.1 = raise <$> c1_items a1.1 /\ c_expire a2.1 = c1_expire a1.1).
    { subst a1 a2. rewrite Hc. cbn [step step1 up]. unfold verify, verify1. rewrite mclean_lift.
      destruct (clean1 c1 0 now) as [c3 r] eqn:Ec. cbn [fst snd].
      destruct r; try done. cbn [lift c_items]. rewrite (down_raise (c1_items c3)).
      pose proof (verify_loop_lift f (order (c1_items c3)) c3 (lift c3) n eq_refl) as Hl.
      pose proof (loop_expire f (order (c1_items c3)) c3 n) as H1. pose proof (loop_expire2 f (order (c1_items c3)) (lift c3) n) as H2.
      cbn zeta in Hl. destruct (verify_loop f _ (lift c3) n) as [c4 i4], (verify_loop1 f _ c3 n) as [c5 i5].
      cbn [fst snd] in *. destruct Hl as (-> & -> & _). split_and!; [done|done|]. by rewrite H1, H2. }
    clearbody a1 a2. destruct Hs as (H1 & H2 & H3). split; [done|]. split.
    - cbn. by rewrite H2, size_raise.
    - intros k v t2 t3. cbn [step step1 up]. unfold get, get1. rewrite H2, H3, lookup_fmap.
      destruct (c1_items a1.1 !! k) as [x|]; [|done]. cbn [fmap option_fmap option_map]. unfold rejected.
      cbn [raise e_ctime e_ttl e_data e_rtime]. replace (bool_decide (0%Z = 0%Z)) with true by done. cbn [negb andb orb].
      destruct v as [g|]; [destruct (g k (e1_ctime x))|]; cbn [negb orb]; try done;
        by destruct (negb (bool_decide (c1_expire a1.1 = 0)) && before_now (e1_ctime x) (c1_expire a1.1) t2).
  Qed.
End Sim.

(** ** Witnesses: the keys Verify deletes stay in the recency list. *)
Definition at1 (t : Z) : bytes -> Z := fun _ => t.
Definition set_ (k : string) (d : Z) : op1 Z := V1Set (B k) d 0 0 (at1 0).
Definition get_ (k : string) : op1 Z := V1Get (B k) None 0 0.
Definition order_ : gmap bytes (entry1 Z) -> list bytes := fun m => (map_to_list m).*1.
Definition reject_all : op1 Z := V1Verify (Some (fun _ _ => false)) (at1 0) order_.
Definition quiet (o : op1 Z) : Prop := match o with V1Flush | V1Max _ | V1Expire _ => False | _ => True end.
Lemma v1_over :
  exists ops, Forall quiet ops /\ (step1 0 (run1 0 (new_cache1 10 0) ops).1 V1Count).2 = RInt 11 /\
    (step 0 (run 0 (new_cache 10 0) (map up ops)).1 OCount).2 = RInt 9.
Proof.
  exists ([set_ "a" 1; set_ "b" 1; reject_all] ++ ((fun s => set_ s 2) <$> ["c"; "d"; "e"; "f"; "g"; "h"; "i"; "j"; "k"; "l"; "m"]%string)).
  split; [by repeat constructor|]. vm_compute. done.
Qed.
Lemma v1_self_evict :
  exists ops, Forall quiet ops /\ (run1 0 (new_cache1 10 0) (ops ++ [set_ "k" 7; get_ "k"])).2 = (run1 0 (new_cache1 10 0) ops).2 ++ [RUnit; RGet 0 false].
Proof.
  exists ([set_ "k" 1; reject_all] ++ ((fun s => set_ s 2) <$> ["c"; "d"; "e"; "f"; "g"; "h"; "i"; "j"; "l"]%string)).
  split; [by repeat constructor|]. vm_compute. done.
Qed.
