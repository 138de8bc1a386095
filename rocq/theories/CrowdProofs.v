(** * Clients that load on demand: the invariant (C131). *)
From Verif Require Import GoBase CacheModel CacheSpec CacheConc CacheConcProofs CrowdSpec.
Local Open Scope Z_scope.

Section CrowdProofs.
  Context {D : Type} (dnil : D) (is_nil : D -> bool) (load : bytes -> D).
  Hypothesis load_some : forall k, is_nil (load k) = false.
  Implicit Types (ls : list (label D)) (k : bytes) (t : nat) (h : gmap positive (entry D)).

  Lemma snoc_split {A} (a : list A) y b (ls : list A) l : a ++ y :: b = ls ++ [l] -> (b = [] /\ y = l /\ a = ls) \/ exists b', b = b' ++ [l] /\ ls = a ++ y :: b'.
  Proof.
    destruct b as [|z b _] using rev_ind; intros H.
    - apply app_inj_tail in H as [-> ->]. by left.
    - right. exists b. rewrite app_comm_cons, app_assoc in H. by apply app_inj_tail in H as [<- ->].
  Qed.
  Lemma on_demand_prefix ls l : on_demand is_nil load (ls ++ [l]) -> on_demand is_nil load ls.
  Proof. intros H a t k d b ->. apply (H a t k d (b ++ [l])). by rewrite <- app_assoc. Qed.
  Lemma loaders_snoc k ls l : loaders k (ls ++ [l]) = loaders k ls ++ loaders k [l].
  Proof. unfold loaders. by rewrite omap_app. Qed.

  Definition good k (x : positive) h : Prop := exists e, h !! x = Some e /\ e_data e = load k /\ e_ttl e = 0.
  Definition keeps h h' : Prop := forall k x, good k x h -> good k x h'.
  Lemma keeps_insert h x e : h !! x = None -> keeps h (<[x := e]> h).
  Proof. intros Hx k y (e' & He & H). exists e'. rewrite lookup_insert_ne by congruence. done. Qed.
  Lemma keeps_alter h x f : (forall e, e_data (f e) = e_data e /\ e_ttl (f e) = e_ttl e) -> keeps h (alter f x h).
  Proof.
    intros Hf k y (e & He & H1 & H2). destruct (decide (y = x)) as [->|Hne].
    - exists (f e). rewrite lookup_alter, He. destruct (Hf e) as [-> ->]. done.
    - exists e. by rewrite lookup_alter_ne.
  Qed.

  (** No Set of the key had ended when thread [t] began its call. *)
  Definition unsettled t k ls : Prop := forall a c b, ls = a ++ LInv t c :: b -> Forall (fun l => ~ of_thread t l) b ->
    forall t' d r, LRet t' (CSet k d) r ∉ a.
  Definition thread_ok (s : shared D) ls t (st : option (call D * pc D)) : Prop :=
    match st with
    | None => True
    | Some (CSet k d, p) => match p with Start => d = load k | Exit r => is_Some (h_items s !! k) | _ => False end
    | Some (CGet k v, p) => (forall c, accepts v k c) /\
        match p with
        | Start => True
        | GTtl x | GVal x | GExp x | GRtime x | GTouch x => good k x (h_heap s)
        | Exit r => exists x, r = RGet x false /\ (x = load k \/ x = dnil /\ t ∉ loaders k ls /\ unsettled t k ls)
        | _ => False
        end
    | _ => False
    end.
  Record fine (g : config D) ls : Prop := Fine {
    f_max : h_max (g_shared g) = 0; f_exp : h_expire (g_shared g) = 0;
    f_items : forall k x, h_items (g_shared g) !! k = Some x -> good k x (h_heap (g_shared g));
    f_thread : forall t, thread_ok (g_shared g) ls t (g_threads g t);
    f_kept : forall t k, t ∈ loaders k ls -> is_Some (h_items (g_shared g) !! k) \/ exists d, g_threads g t = Some (CSet k d, Start);
    f_ret : forall t k d r, LRet t (CSet k d) r ∈ ls -> is_Some (h_items (g_shared g) !! k);
    f_once : forall k, NoDup (loaders k ls);
    f_last : forall t a k v x e b, ls = a ++ LRet t (CGet k v) (RGet x e) :: b -> is_nil x = true -> Forall (fun l => ~ of_thread t l) b -> t ∉ loaders k ls;
    f_settled : forall t a k v b r c, ls = a ++ LInv t (CGet k v) :: b ++ LRet t (CGet k v) r :: c -> Forall (fun l => ~ of_thread t l) b ->
      (exists t' d r', LRet t' (CSet k d) r' ∈ a) -> r = RGet (load k) false }.

  (** ** The parts that a label changes *)
  Lemma loaders_other k (l : label D) : (forall t d, l <> LInv t (CSet k d)) -> loaders k [l] = [].
  Proof.
    intros H. unfold loaders. simpl. destruct l as [t c| | |]; try done. destruct c; try done. destruct (decide (k0 = k)) as [->|]; [|done].
    by destruct (H t d).
  Qed.
  Lemma thread_ok_mono (s s' : shared D) ls (l : label D) t st : thread_ok s ls t st -> keeps (h_heap s) (h_heap s') ->
    (forall k, is_Some (h_items s !! k) -> is_Some (h_items s' !! k)) -> (forall c, l <> LInv t c) -> thread_ok s' (ls ++ [l]) t st.
  Proof.
    intros H Hk Hi Hl. destruct st as [[c p]|]; [|done]. destruct c; try done; simpl in *.
    - destruct p; try done. by apply Hi.
    - destruct H as [Hv H]. split; [done|]. destruct p; try done; try (by apply Hk).
      destruct H as (x & -> & H). exists x. split; [done|]. destruct H as [->|(-> & H1 & H2)]; [by left|right]. split_and!; [done| |].
      + rewrite loaders_snoc, elem_of_app. intros [Hin|Hin]; [done|]. unfold loaders in Hin. simpl in Hin.
        destruct l as [t' c'| | |]; try (by inversion Hin). destruct c'; try (by inversion Hin). destruct (decide _); [|by inversion Hin].
        apply elem_of_list_singleton in Hin as ->. by eapply Hl.
      + intros a c b Heq Hb. symmetry in Heq. apply snoc_split in Heq as [(-> & <- & ->)|(b' & -> & ->)]; [by destruct (Hl c)|].
        apply Forall_app in Hb as [Hb _]. by apply (H2 a c b').
  Qed.
  (** Labels that begin no Set and end no call. *)
  Lemma last_other ls (l : label D) : (forall t k d, l <> LInv t (CSet k d)) -> (forall t c r, l <> LRet t c r) ->
    (forall t a k v x e b, ls = a ++ LRet t (CGet k v) (RGet x e) :: b -> is_nil x = true -> Forall (fun l => ~ of_thread t l) b -> t ∉ loaders k ls) ->
    forall t a k v x e b, ls ++ [l] = a ++ LRet t (CGet k v) (RGet x e) :: b -> is_nil x = true -> Forall (fun l => ~ of_thread t l) b -> t ∉ loaders k (ls ++ [l]).
  Proof.
    intros H1 H2 H t a k v x e b Heq Hx Hb. rewrite loaders_snoc, (loaders_other k l), app_nil_r by (intros; apply H1).
    symmetry in Heq. apply snoc_split in Heq as [(-> & <- & ->)|(b' & -> & Heq)]; [by destruct (H2 t (CGet k v) (RGet x e))|].
    apply Forall_app in Hb as [Hb _]. by eapply H.
  Qed.
  Lemma settled_other ls (l : label D) : (forall t c r, l <> LRet t c r) ->
    (forall t a k v b r c, ls = a ++ LInv t (CGet k v) :: b ++ LRet t (CGet k v) r :: c -> Forall (fun l => ~ of_thread t l) b ->
      (exists t' d r', LRet t' (CSet k d) r' ∈ a) -> r = RGet (load k) false) ->
    forall t a k v b r c, ls ++ [l] = a ++ LInv t (CGet k v) :: b ++ LRet t (CGet k v) r :: c -> Forall (fun l => ~ of_thread t l) b ->
      (exists t' d r', LRet t' (CSet k d) r' ∈ a) -> r = RGet (load k) false.
  Proof.
    intros H2 H t a k v b r c Heq Hb Ha. symmetry in Heq.
    rewrite app_comm_cons, app_assoc in Heq. apply snoc_split in Heq as [(-> & <- & Heq)|(c' & -> & Heq)].
    - by destruct (H2 t (CGet k v) r).
    - rewrite <- app_assoc in Heq. simpl in Heq. by eapply H.
  Qed.

  (** ** Steps *)
  Lemma client_step (s : shared D) ls t c p i s' p' : in_mid i = None -> in_says i = None \/ in_says i = Some Yes ->
    h_max s = 0 -> h_expire s = 0 -> (forall k x, h_items s !! k = Some x -> good k x (h_heap s)) ->
    (forall t' k d r, LRet t' (CSet k d) r ∈ ls -> is_Some (h_items s !! k)) ->
    (forall k, t ∈ loaders k ls -> is_Some (h_items s !! k) \/ exists d, (c, p) = (CSet k d, Start)) ->
    thread_ok s ls t (Some (c, p)) -> tstep dnil s c p i = Some (s', p') ->
    h_max s' = 0 /\ h_expire s' = 0 /\ keeps (h_heap s) (h_heap s') /\
    (forall k, is_Some (h_items s !! k) -> is_Some (h_items s' !! k)) /\
    (forall k x, h_items s' !! k = Some x -> good k x (h_heap s')) /\
    (forall k d, (c, p) = (CSet k d, Start) -> is_Some (h_items s' !! k)) /\
    thread_ok s' (ls ++ [LTau t]) t (Some (c, p')).
  Proof.
    intros Hm Hs Hmx Hex Hit Hr Hkept Hth Hstep. destruct c; try done.
    - destruct p; try done. simpl in Hstep, Hth. destruct (h_heap s !! in_loc i) eqn:Eh; [done|].
      unfold cset, reads in Hstep. rewrite Hm in Hstep. simpl in Hstep. rewrite Hmx in Hstep.
      rewrite bool_decide_eq_false_2 in Hstep by lia. injection Hstep as <- <-. simpl.
      assert (Hk : keeps (h_heap s) (<[in_loc i := Entry (in_t1 i) (in_t2 i) 0 d]> (h_heap s))) by by apply keeps_insert.
      split_and!; try done.
      + intros k0 H0. destruct (decide (k0 = k)) as [->|Hne]; [rewrite lookup_insert; eauto|by rewrite lookup_insert_ne].
      + intros k0 x. destruct (decide (k0 = k)) as [->|Hne].
        * rewrite lookup_insert. intros [= <-]. exists (Entry (in_t1 i) (in_t2 i) 0 d). rewrite lookup_insert. done.
        * rewrite lookup_insert_ne by done. intros Hx. by apply Hk, Hit.
      + intros k0 d0 [= <- <-]. rewrite lookup_insert. eauto.
      + rewrite lookup_insert. eauto.
    - destruct Hth as [Hv Hth]. assert (Hkr : keeps (h_heap s) (h_heap s)) by (intros ???; done).
      destruct p; try done; simpl in Hstep, Hth.
      + destruct (h_items s !! k) as [x|] eqn:Ek; injection Hstep as <- <-; (split_and!; try done); simpl; (split; [done|]).
        * by apply Hit.
        * exists dnil. split; [done|]. right. split_and!; [done| |].
          -- rewrite loaders_snoc, loaders_other, app_nil_r by done. intros Hin. destruct (Hkept k Hin) as [[? ?]|[? ?]]; congruence.
          -- intros a c b Heq Hb t' d r Hin. symmetry in Heq. apply snoc_split in Heq as [(_ & ? & _)|(b' & _ & Heq)]; [done|].
             destruct (Hr t' k d r) as [? ?]; [rewrite Heq; apply elem_of_app; by left|congruence].
      + destruct Hth as (e & He & Hd & Ht). rewrite He, decide_True in Hstep by done. injection Hstep as <- <-.
        split_and!; try done. simpl. split; [done|]. by exists e.
      + destruct Hth as (e & He & Hd & Ht). rewrite He in Hstep.
        assert (s' = s /\ p' = GExp x) as [-> ->].
        { destruct v as [f|]; [|by simplify_eq]. specialize (Hv (e_ctime e)). simpl in Hv.
          unfold ruling in Hstep. destruct Hs as [Hs|Hs]; rewrite Hs in Hstep; [rewrite Hv in Hstep|]; by simplify_eq. }
        split_and!; try done. simpl. split; [done|]. by exists e.
      + destruct Hth as (e & He & Hd & Ht). rewrite He, decide_True in Hstep by done. injection Hstep as <- <-.
        split_and!; try done. simpl. split; [done|]. by exists e.
      + injection Hstep as <- <-. simpl.
        assert (Hk : keeps (h_heap s) (alter (fun e => Entry (e_ctime e) (in_t1 i) (e_ttl e) (e_data e)) x (h_heap s))) by by apply keeps_alter.
        split_and!; try done; [intros; by apply Hk, Hit|by apply Hk].
      + destruct Hth as (e & He & Hd & Ht). rewrite He in Hstep. injection Hstep as <- <-. simpl.
        split_and!; try done. exists (e_data e). split; [done|]. by left.
  Qed.
  Lemma fine_step g ls a g' l : fine g ls -> client_action a -> on_demand is_nil load (ls ++ [l]) ->
    cstep dnil g a = Some (g', l) -> fine g' (ls ++ [l]).
  Proof.
    intros [Fm Fe Fi Ft Fk Fr Fo Fl Fs] Ha Hod Hs. destruct a as [t c|t i|t| |]; try done; simpl in Hs.
    - destruct (g_threads g t) eqn:Et; [done|]. injection Hs as <- <-.
      assert (Hth : forall t', thread_ok (g_shared g) (ls ++ [LInv t c]) t' (upd (g_threads g) t (Some (c, Start)) t')).
      { intros t'. destruct (decide (t' = t)) as [->|Hne].
        - rewrite upd_same. destruct c; try done; simpl. by destruct (Hod ls t k d [] eq_refl).
        - rewrite upd_other by done. eapply thread_ok_mono; [done| | |]; [by intros ??|done|by intros ? [= ]]. }
      assert (Hret : forall t0 k d r, LRet t0 (CSet k d) r ∈ ls ++ [LInv t c] -> is_Some (h_items (g_shared g) !! k)).
      { intros t0 k d r. rewrite elem_of_app. intros [H|H%elem_of_list_singleton]; [by eapply Fr|done]. }
      assert (Hset : forall t a k v b r c0, ls ++ [LInv t c] = a ++ LInv t (CGet k v) :: b ++ LRet t (CGet k v) r :: c0 -> True) by done.
      destruct c as [k d| |k v| | | | |]; try done.
      + destruct (Hod ls t k d [] eq_refl) as (_ & a1 & v & x & e & a2 & Hls & Hx & Ha2).
        assert (Hnot : t ∉ loaders k ls) by (eapply Fl; done).
        assert (Hl1 : loaders k [LInv t (CSet k d)] = [t]) by (unfold loaders; simpl; by rewrite decide_True).
        split; simpl; try done.
        * intros t0 k0. rewrite loaders_snoc, elem_of_app. intros [H|H].
          -- destruct (Fk t0 k0 H) as [|[d0 Hd0]]; [by left|right]. exists d0. rewrite upd_other by congruence. done.
          -- right. unfold loaders in H. simpl in H. destruct (decide (k = k0)) as [->|]; [|by inversion H].
             apply elem_of_list_singleton in H as ->. exists d. by rewrite upd_same.
        * intros k0. destruct (decide (k = k0)) as [<-|Hne].
          -- rewrite loaders_snoc, Hl1. apply NoDup_app. split_and!; [done| |apply NoDup_singleton].
             intros y Hy ->%elem_of_list_singleton. done.
          -- rewrite loaders_snoc, loaders_other, app_nil_r by congruence. done.
        * intros t0 a k0 v0 x0 e0 b Heq Hx0 Hb. symmetry in Heq. apply snoc_split in Heq as [(_ & ? & _)|(b' & -> & Heq)]; [done|].
          apply Forall_app in Hb as [Hb Hl]. rewrite Forall_singleton in Hl. simpl in Hl.
          rewrite loaders_snoc, elem_of_app. intros [H|H]; [by eapply Fl|].
          unfold loaders in H. simpl in H. destruct (decide _); [|by inversion H]. apply elem_of_list_singleton in H. done.
        * by apply settled_other.
      + split; simpl; try done.
        * intros t0 k0. rewrite loaders_snoc, loaders_other, app_nil_r by done. intros H.
          destruct (Fk t0 k0 H) as [|[d0 Hd0]]; [by left|right]. exists d0. rewrite upd_other by congruence. done.
        * intros k0. rewrite loaders_snoc, loaders_other, app_nil_r by done. done.
        * by apply last_other.
        * by apply settled_other.
    - destruct (g_threads g t) as [[c p]|] eqn:Et; [|done]. destruct (tstep dnil (g_shared g) c p i) as [[s' p']|] eqn:Es; [|done].
      injection Hs as <- <-. destruct Ha as [Hm Hsays]. pose proof (Ft t) as Htt. rewrite Et in Htt.
      destruct (client_step (g_shared g) ls t c p i s' p') as (H1 & H2 & H3 & H4 & H5 & H6 & H7); try done.
      { intros k Hk. destruct (Fk t k Hk) as [|[d Hd]]; [by left|right]. exists d. congruence. }
      split; simpl; try done.
      + intros t'. destruct (decide (t' = t)) as [->|Hne]; [by rewrite upd_same|]. rewrite upd_other by done. by eapply thread_ok_mono.
      + intros t0 k0. rewrite loaders_snoc, loaders_other, app_nil_r by done. intros H. destruct (Fk t0 k0 H) as [|[d0 Hd0]]; [left; by apply H4|].
        destruct (decide (t0 = t)) as [->|Hne]; [|right; exists d0; by rewrite upd_other]. left. eapply H6. rewrite Et in Hd0. by simplify_eq.
      + intros t0 k d r. rewrite elem_of_app. intros [H|H%elem_of_list_singleton]; [|done]. by eapply H4, Fr.
      + intros k0. rewrite loaders_snoc, loaders_other, app_nil_r by done. done.
      + by apply last_other.
      + by apply settled_other.
    - destruct (g_threads g t) as [[c p]|] eqn:Et; [|done]. destruct p as [| | | | | | | | | | | | |r]; try done. injection Hs as <- <-.
      pose proof (Ft t) as Htt. rewrite Et in Htt.
      split; simpl; try done.
      + intros t'. destruct (decide (t' = t)) as [->|Hne]; [by rewrite upd_same|]. rewrite upd_other by done.
        eapply thread_ok_mono; [done| | |]; [by intros ??|done|done].
      + intros t0 k0. rewrite loaders_snoc, loaders_other, app_nil_r by done. intros H. destruct (Fk t0 k0 H) as [|[d0 Hd0]]; [by left|right].
        exists d0. rewrite upd_other by congruence. done.
      + intros t0 k d r0. rewrite elem_of_app. intros [H|H%elem_of_list_singleton]; [by eapply Fr|]. injection H as -> <- <-. by simpl in Htt.
      + intros k0. rewrite loaders_snoc, loaders_other, app_nil_r by done. done.
      + intros t0 a k v x e b Heq Hx Hb. rewrite loaders_snoc, loaders_other, app_nil_r by done. symmetry in Heq.
        apply snoc_split in Heq as [(_ & Hl & _)|(b' & -> & Heq)].
        * injection Hl as -> <- <-. simpl in Htt. destruct Htt as (_ & y & [= -> ->] & Hy). destruct Hy as [->|(_ & Hy & _)]; [|done].
          by rewrite load_some in Hx.
        * apply Forall_app in Hb as [Hb _]. by eapply Fl.
      + intros t0 a k v b r0 c0 Heq Hb Hset. symmetry in Heq. rewrite app_comm_cons, app_assoc in Heq.
        apply snoc_split in Heq as [(-> & Hl & Heq)|(c' & -> & Heq)].
        * injection Hl as -> <- <-. simpl in Htt. destruct Htt as (_ & y & -> & Hy). destruct Hy as [->|(_ & _ & Hy)]; [done|].
          destruct Hset as (t' & d & r' & Hin). by destruct (Hy a (CGet k v) b (eq_sym Heq) Hb t' d r').
        * rewrite <- app_assoc in Heq. simpl in Heq. by eapply Fs.
  Qed.
  Lemma clients_fine acts g tr : exec dnil (cinit 0 0) acts = Some (g, tr) -> Forall client_action acts -> on_demand is_nil load tr.*1 -> fine g tr.*1.
  Proof.
    intros He Ha. revert He. revert g tr.
    assert (H : forall acts g tr, Forall client_action acts -> exec dnil (cinit 0 0) acts = Some (g, tr) -> on_demand is_nil load tr.*1 -> fine g tr.*1).
    { apply (exec_invariant dnil (fun g tr => on_demand is_nil load tr.*1 -> fine g tr.*1) client_action).
      - intros _. split; simpl; try done.
        + intros t k H. inversion H.
        + intros t k d r H. inversion H.
        + intros k. constructor.
        + intros t a k v x e b H. by destruct a.
        + intros t a k v b r c H. by destruct a.
      - intros g tr a g' l IH Hq Hs. rewrite fmap_app. simpl. intros Hod. eapply fine_step; [|done|done|done].
        apply IH. by eapply on_demand_prefix. }
    intros g tr He. by apply (H acts).
  Qed.

  (** ** The theorems *)
  Lemma loads_once acts g tr k : exec dnil (cinit 0 0) acts = Some (g, tr) -> Forall client_action acts -> on_demand is_nil load tr.*1 ->
    NoDup (loaders k tr.*1).
  Proof. intros He Ha Ho. by apply (f_once _ _ (clients_fine acts g tr He Ha Ho)). Qed.
  Lemma loads_bounded acts g tr k n : exec dnil (cinit 0 0) acts = Some (g, tr) -> Forall client_action acts -> on_demand is_nil load tr.*1 ->
    (forall t c, LInv t c ∈ tr.*1 -> (t < n)%nat) -> (length (loaders k tr.*1) <= n)%nat.
  Proof.
    intros He Ha Ho Hn. rewrite <- (seq_length n 0). apply submseteq_length, NoDup_submseteq; [by eapply loads_once|].
    intros t Ht. apply elem_of_seq. unfold loaders in Ht. apply elem_of_list_omap in Ht as (l & Hl & Hx).
    destruct l as [t' c| | |]; try done. destruct c; try done. destruct (decide _); [|done]. injection Hx as ->. specialize (Hn _ _ Hl). lia.
  Qed.
  Lemma get_after_set acts g tr t a k v b r c : exec dnil (cinit 0 0) acts = Some (g, tr) -> Forall client_action acts -> on_demand is_nil load tr.*1 ->
    tr.*1 = a ++ LInv t (CGet k v) :: b ++ LRet t (CGet k v) r :: c -> Forall (fun l => ~ of_thread t l) b ->
    (exists t' d r', LRet t' (CSet k d) r' ∈ a) -> r = RGet (load k) false.
  Proof. intros He Ha Ho. by apply (f_settled _ _ (clients_fine acts g tr He Ha Ho)). Qed.
End CrowdProofs.
