(** * The age of the values that concurrent Gets give: the invariant (C132). *)
From Verif Require Import GoBase CacheModel CacheConc CacheConcProofs CacheConcProofs2 AgeSpec.
From Coq Require Import Lia.
Local Open Scope Z_scope.

Section AgeProofs.
  Context {D : Type} (dnil : D) (ex : Z).
  Implicit Types (acts : list (action D)) (k : bytes) (t : nat) (s : shared D).

  Lemma stored_snoc acts k d tc a : stored acts k d tc -> stored (acts ++ [a]) k d tc.
  Proof.
    intros (x & t & b & i & c & -> & Hb & Hi). exists x, t, b, i, (c ++ [a]). split_and!; [|done|done].
    rewrite <- app_assoc. simpl. rewrite <- app_assoc. done.
  Qed.
  Lemma running_snoc acts t c a b y : running acts t c a b -> ~ bounds t y -> running (acts ++ [y]) t c a (b ++ [y]).
  Proof. intros [-> Hb] Hy. split; [by rewrite <- app_assoc|]. apply Forall_app. split; [done|by apply Forall_singleton]. Qed.
  Lemma tstep_heap s c p i s' p' : tstep dnil s c p i = Some (s', p') ->
    (exists k d, c = CSet k d /\ p = Start) \/ forall x, is_Some (h_heap s' !! x) -> is_Some (h_heap s !! x).
  Proof.
    intros Ht. assert (Ha : forall f x y, is_Some (alter f x (h_heap s) !! y) -> is_Some (h_heap s !! y)).
    { intros f x y. by rewrite lookup_alter_is_Some. }
    destruct c, p; try (apply verify_head in Ht as [-> _]; by right); try (apply verify_val in Ht as [-> _]; by right);
      try (left; by eauto); right; simpl in Ht; try done;
      repeat match type of Ht with
      | match ?a !! ?b with _ => _ end = _ => destruct (a !! b) eqn:?; simplify_eq
      | Some _ = Some _ => simplify_eq
      end; try done; try (intros y; apply Ha).
    all: repeat match type of Ht with
      | context [cclean ?y ?q ?n ?rd] => let s2 := fresh "s2" in let r2 := fresh "r2" in let E := fresh "E" in
          destruct (cclean y q n rd) as [s2 r2] eqn:E; apply cclean_sub in E as [E _]; simpl in E
      end.
    all: repeat match type of Ht with
      | context [match ?r with RPanic => _ | _ => _ end] => destruct r
      | context [match ?r with Some _ => _ | _ => _ end] => destruct r
      end; simplify_eq; simpl; try done; try congruence; try (intros y; congruence).
  Qed.
  Lemma tstep_expire s c p i s' p' : tstep dnil s c p i = Some (s', p') -> h_expire s' = h_expire s.
  Proof.
    intros Ht.
    assert (Hc : forall s p n rd s2 r, cclean s p n rd = (s2, r) -> h_expire s2 = h_expire s).
    { intros s0 p0 n rd s2 r H. unfold cclean in H. destruct (evict _ _ _) as [[[] ?] ?]; by simplify_eq. }
    destruct c, p; try (apply verify_head in Ht as [-> _]; done); try (apply verify_val in Ht as [-> _]; done); simpl in Ht; try done;
      repeat match type of Ht with
      | match ?a !! ?b with _ => _ end = _ => destruct (a !! b) eqn:?; simplify_eq
      | Some _ = Some _ => simplify_eq
      end; try done.
    all: unfold cset in Ht.
    all: repeat match type of Ht with
      | context [cclean ?y ?q ?n ?rd] => let s2 := fresh "s2" in let r2 := fresh "r2" in let E := fresh "E" in
          destruct (cclean y q n rd) as [s2 r2] eqn:E; apply Hc in E; simpl in E
      end.
    all: repeat match type of Ht with
      | context [if bool_decide ?b then _ else _] => destruct (bool_decide b)
      | context [match ?r with RPanic => _ | _ => _ end] => destruct r
      | context [match ?r with Some _ => _ | _ => _ end] => destruct r
      end; simplify_eq; simpl; done.
  Qed.

  Definition checked t (b : list (action D)) (tc : Z) : Prop := ex = 0 \/ exists r, reading t b r /\ r <= tc + ex.
  Lemma checked_snoc t b tc y : checked t b tc -> checked t (b ++ [y]) tc.
  Proof. intros [|(r & (i & Hi & Hr) & Hle)]; [by left|right]. exists r. split; [|done]. exists i. split; [|done]. apply elem_of_app. by left. Qed.
  Definition get_ok (own : positive -> bytes) (h : gmap positive (entry D)) acts t k (b : list (action D)) (p : pc D) : Prop :=
    match p with
    | GTtl x | GTtl2 x | GVal x | GExp x | GExp2 x => own x = k /\ is_Some (h !! x)
    | GRtime x | GTouch x => own x = k /\ exists e, h !! x = Some e /\ checked t b (e_ctime e)
    | Exit (RGet d false) => d = dnil \/ exists tc, stored acts k d tc /\ checked t b tc
    | _ => True
    end.
  Definition thread_ok (own : positive -> bytes) (h : gmap positive (entry D)) acts t (st : option (call D * pc D)) : Prop :=
    match st with
    | Some (CSet k d, Start) => exists a b, acts = a ++ AInv t (CSet k d) :: b /\ Forall (fun x => ~ acts_of t x) b
    | Some (CGet k v, p) => exists a b, running acts t (CGet k v) a b /\ get_ok own h acts t k b p
    | _ => True
    end.
  Definition fine acts (g : config D) : Prop :=
    let s := g_shared g in h_expire s = ex /\ exists own,
    (forall k x, h_items s !! k = Some x -> own x = k /\ is_Some (h_heap s !! x)) /\
    (forall x e, h_heap s !! x = Some e -> stored acts (own x) (e_data e) (e_ctime e)) /\
    (forall t, thread_ok own (h_heap s) acts t (g_threads g t)).

  Lemma get_ok_mono own own' h h' acts y t k b p : (forall x, is_Some (h !! x) -> own' x = own x) -> grows h h' ->
    get_ok own h acts t k b p -> get_ok own' h' (acts ++ [y]) t k (b ++ [y]) p.
  Proof.
    intros Ho Hg H.
    assert (H1 : forall x, own x = k /\ is_Some (h !! x) -> own' x = k /\ is_Some (h' !! x)).
    { intros x [Hk [e He]]. rewrite Ho by eauto. split; [done|]. destruct (Hg x e He) as (e' & -> & _). eauto. }
    assert (H2 : forall x, (own x = k /\ exists e, h !! x = Some e /\ checked t b (e_ctime e)) -> own' x = k /\ exists e, h' !! x = Some e /\ checked t (b ++ [y]) (e_ctime e)).
    { intros x [Hk (e & He & Hc)]. rewrite Ho by eauto. split; [done|]. destruct (Hg x e He) as (e' & He' & _ & Ht). exists e'. rewrite Ht. split; [done|by apply checked_snoc]. }
    destruct p as [| | | | | | | | | | | | |r]; simpl in *; try done; try (by apply H1); try (by apply H2).
    destruct r as [| |d []|]; try done. destruct H as [|(tc & Hs & Hc)]; [by left|right]. exists tc. split; [by apply stored_snoc|by apply checked_snoc].
  Qed.
  Lemma thread_ok_mono own own' h h' acts y t st : (forall x, is_Some (h !! x) -> own' x = own x) -> grows h h' -> ~ acts_of t y ->
    thread_ok own h acts t st -> thread_ok own' h' (acts ++ [y]) t st.
  Proof.
    intros Ho Hg Hy H. destruct st as [[c p]|]; [|done]. destruct c as [k d| |k v| | | | |]; try done; simpl in *.
    - destruct p; try done. destruct H as (a & b & -> & Hb). exists a, (b ++ [y]). split; [by rewrite <- app_assoc|].
      apply Forall_app. split; [done|by apply Forall_singleton].
    - destruct H as (a & b & Hr & H). exists a, (b ++ [y]). split; [|by eapply get_ok_mono]. apply running_snoc; [done|].
      destruct y; simpl in *; tauto.
  Qed.
  Lemma get_step own s acts t k v a b p i s' p' : h_expire s = ex ->
    (forall k x, h_items s !! k = Some x -> own x = k /\ is_Some (h_heap s !! x)) ->
    (forall x e, h_heap s !! x = Some e -> stored acts (own x) (e_data e) (e_ctime e)) ->
    running acts t (CGet k v) a b -> get_ok own (h_heap s) acts t k b p -> tstep dnil s (CGet k v) p i = Some (s', p') ->
    get_ok own (h_heap s') (acts ++ [AStep t i]) t k (b ++ [AStep t i]) p'.
  Proof.
    intros Hx Hi Hh Hr Hp Hs. destruct p as [| | | | | | | | | | | | |r]; simpl in Hs; try done.
    - destruct (h_items s !! k) as [x|] eqn:E; injection Hs as <- <-; simpl; [by apply Hi|by left].
    - simpl in Hp. destruct Hp as [Ho [e He]]. rewrite He in Hs. injection Hs as <- <-. destruct (decide _); simpl; eauto.
    - simpl in Hp. destruct Hp as [Ho [e He]]. rewrite He in Hs. injection Hs as <- <-. destruct (before_now _ _ _); simpl; eauto.
    - simpl in Hp. destruct Hp as [Ho [e He]]. rewrite He in Hs. destruct v as [f|]; injection Hs as <- <-; [|simpl; eauto].
      destruct (ruling _ _); simpl; eauto.
    - simpl in Hp. destruct Hp as [Ho [e He]]. rewrite He in Hs. injection Hs as <- <-. destruct (decide _) as [H0|]; simpl; [|eauto].
      split; [done|]. exists e. split; [done|]. left. congruence.
    - simpl in Hp. destruct Hp as [Ho [e He]]. rewrite He in Hs. injection Hs as <- <-. destruct (before_now _ _ _) eqn:E; simpl; [done|].
      split; [done|]. exists e. split; [done|]. right. exists (in_t1 i). split; [exists i; split; [apply elem_of_app; right; by left|done]|].
      unfold before_now in E. apply Z.ltb_ge in E. congruence.
    - injection Hs as <- <-. simpl. done.
    - injection Hs as <- <-. simpl in *. destruct Hp as (Ho & e & He & Hc). split; [done|].
      eexists. rewrite lookup_alter, He. split; [done|]. simpl. by apply checked_snoc.
    - simpl in Hp. destruct Hp as (Ho & e & He & Hc). rewrite He in Hs. injection Hs as <- <-. simpl. right. exists (e_ctime e).
      split; [|by apply checked_snoc]. apply stored_snoc. rewrite <- Ho. by apply Hh.
  Qed.
  Lemma fine_step acts g a g' l : fine acts g -> keeps_expire a -> cstep dnil g a = Some (g', l) -> fine (acts ++ [a]) g'.
  Proof.
    intros (Hx & own & Hi & Hh & Ht) Ha Hs.
    assert (Hst : forall x e, h_heap (g_shared g) !! x = Some e -> stored (acts ++ [a]) (own x) (e_data e) (e_ctime e)) by (intros; by apply stored_snoc, Hh).
    destruct a as [t c|t i|t|mx|ex']; simpl in Hs.
    - destruct (g_threads g t) eqn:Et; [done|]. injection Hs as <- <-. split; [done|]. exists own. split_and!; [done|done|]. simpl. intros t'.
      destruct (decide (t' = t)) as [->|Hne].
      + rewrite upd_same. destruct c; try done; simpl.
        * exists acts, []. done.
        * exists acts, []. by repeat split.
      + rewrite upd_other by done. eapply thread_ok_mono; [done|apply grows_refl| |by apply Ht]. simpl. congruence.
    - destruct (g_threads g t) as [[c p]|] eqn:Et; [|done]. destruct (tstep dnil (g_shared g) c p i) as [[s' p']|] eqn:Es; [|done].
      injection Hs as <- <-. split; [simpl; by rewrite (tstep_expire _ _ _ _ _ _ Es)|]. simpl.
      assert (Hal : allocated (g_shared g)) by (intros k x Hkx; by apply (Hi k x)).
      destruct (tstep_grows dnil _ _ _ _ _ _ Hal Es) as [Hal' Hgr]. pose proof (tstep_items dnil _ _ _ _ _ _ Es) as Hit.
      pose proof (Ht t) as Htt. rewrite Et in Htt.
      destruct (tstep_heap _ _ _ _ _ _ Es) as [(k & d & -> & ->)|Hdom].
      + destruct (tstep_set_heap dnil _ _ _ _ _ _ Es) as [Hnew Hheap].
        exists (fun x => if decide (x = in_loc i) then k else own x). split_and!.
        * intros k' x Hkx. split; [|by eapply Hal']. pose proof (lookup_weaken _ _ _ _ Hkx Hit) as H.
          destruct (decide (k' = k)) as [->|Hne].
          -- rewrite lookup_insert in H. injection H as <-. by rewrite decide_True.
          -- rewrite lookup_insert_ne in H by done. destruct (Hi _ _ H) as [Ho [e He]]. rewrite decide_False; [done|congruence].
        * intros x e. rewrite Hheap. destruct (decide (x = in_loc i)) as [->|Hne].
          -- rewrite lookup_insert. intros [= <-]. simpl. simpl in Htt. destruct Htt as (a & b & -> & Hb).
             exists a, t, b, i, []. split_and!; [by rewrite <- app_assoc|done|done].
          -- rewrite lookup_insert_ne by done. apply Hst.
        * intros t'. destruct (decide (t' = t)) as [->|Hne].
          -- rewrite upd_same. pose proof (tstep_not_start dnil _ _ _ _ _ _ Es) as Hn. simpl. by destruct p'.
          -- rewrite upd_other by done. eapply thread_ok_mono; [|done| |by apply Ht].
             ++ intros x [e He]. rewrite decide_False; [done|congruence].
             ++ simpl. congruence.
      + exists own. split_and!.
        * intros k x Hkx. split; [|by eapply Hal']. destruct c as [k0 d0| | |k0| | | |]; try (by apply (Hi k x), (lookup_weaken _ _ _ _ Hkx Hit)).
          -- destruct p; [|by apply (Hi k x), (lookup_weaken _ _ _ _ Hkx Hit)..]. exfalso.
             destruct (tstep_set_heap dnil _ _ _ _ _ _ Es) as [Hnew Hheap]. destruct (Hdom (in_loc i)) as [e He]; [rewrite Hheap, lookup_insert; eauto|congruence].
          -- destruct p; [|by apply (Hi k x), (lookup_weaken _ _ _ _ Hkx Hit)..]. pose proof (lookup_weaken _ _ _ _ Hkx Hit) as H.
             apply lookup_delete_Some in H as [_ H]. by apply (Hi k x).
          -- destruct p; [|by apply (Hi k x), (lookup_weaken _ _ _ _ Hkx Hit)..]. pose proof (lookup_weaken _ _ _ _ Hkx Hit) as H. done.
        * intros x e He. destruct (Hdom x) as [e0 He0]; [by eauto|]. destruct (Hgr _ _ He0) as (e' & He' & Hd & Hc). simplify_eq. rewrite Hd, Hc. by apply Hst.
        * intros t'. destruct (decide (t' = t)) as [->|Hne].
          -- rewrite upd_same. pose proof (tstep_not_start dnil _ _ _ _ _ _ Es) as Hn. destruct c as [k d| |k v| | | | |]; try done; simpl.
             ++ by destruct p'.
             ++ simpl in Htt. destruct Htt as (a & b & Hr & Hg). exists a, (b ++ [AStep t i]). split; [apply running_snoc; [done|simpl; tauto]|]. by eapply get_step.
          -- rewrite upd_other by done. eapply thread_ok_mono; [done|done| |by apply Ht]. simpl. congruence.
    - destruct (g_threads g t) as [[c p]|] eqn:Et; [|done]. destruct p as [| | | | | | | | | | | | |r]; try done. injection Hs as <- <-.
      split; [done|]. exists own. split_and!; [done|done|]. simpl. intros t'. destruct (decide (t' = t)) as [->|Hne]; [by rewrite upd_same|].
      rewrite upd_other by done. eapply thread_ok_mono; [done|apply grows_refl| |by apply Ht]. simpl. congruence.
    - injection Hs as <- <-. split; [done|]. exists own. split_and!; [done|done|]. simpl. intros t'. eapply thread_ok_mono; [done|apply grows_refl|simpl; tauto|by apply Ht].
    - done.
  Qed.
  Lemma exec_fine mx acts g tr : Forall keeps_expire acts -> exec dnil (cinit mx ex) acts = Some (g, tr) -> fine acts g.
  Proof.
    revert g tr. induction acts as [|a acts IH] using rev_ind; intros g tr Ha He.
    - simpl in He. injection He as <- <-. split; [done|]. exists (fun _ => []). split_and!; done.
    - apply Forall_app in Ha as [Ha Ha']. rewrite Forall_singleton in Ha'. rewrite exec_snoc in He.
      destruct (exec dnil (cinit mx ex) acts) as [[g1 tr1]|] eqn:E; [|done]. destruct (cstep dnil g1 a) as [[g2 l]|] eqn:E2; [|done].
      injection He as <- <-. eapply fine_step; [by eapply IH|done|done].
  Qed.

  (** ** The age of a hit *)
  Lemma hit_age mx acts g tr t k v d g' : ex <> 0 -> Forall keeps_expire acts -> exec dnil (cinit mx ex) acts = Some (g, tr) ->
    cstep dnil g (ARet t) = Some (g', LRet t (CGet k v) (RGet d false)) ->
    exists a b, running acts t (CGet k v) a b /\ (d = dnil \/ exists tc r, stored acts k d tc /\ reading t b r /\ r <= tc + ex).
  Proof.
    intros Hex Ha He Hs. destruct (exec_fine mx acts g tr Ha He) as (_ & own & _ & _ & Ht). specialize (Ht t). simpl in Hs.
    destruct (g_threads g t) as [[c p]|]; [|done]. destruct p as [| | | | | | | | | | | | |r]; try done. injection Hs as _ -> ->.
    destruct Ht as (a & b & Hr & Hg). exists a, b. split; [done|]. destruct Hg as [|(tc & Hst & Hc)]; [by left|right].
    destruct Hc as [|(r & H1 & H2)]; [done|]. eauto 6.
  Qed.
  Lemma hit_young mx acts g tr t k v d g' : ex <> 0 -> Forall keeps_expire acts -> StronglySorted Z.le (readings_of acts) ->
    exec dnil (cinit mx ex) acts = Some (g, tr) -> cstep dnil g (ARet t) = Some (g', LRet t (CGet k v) (RGet d false)) ->
    exists a b, running acts t (CGet k v) a b /\ (d = dnil \/ exists tc, stored acts k d tc /\ forall r, r ∈ readings_of a -> r <= tc + ex).
  Proof.
    intros Hex Ha Hsort He Hs. destruct (hit_age mx acts g tr t k v d g' Hex Ha He Hs) as (a & b & Hr & H). exists a, b. split; [done|].
    destruct H as [|(tc & r & Hst & (i & Hi & <-) & Hle)]; [by left|right]. exists tc. split; [done|]. intros r Hin.
    destruct Hr as [-> _]. unfold readings_of in Hsort. rewrite omap_app in Hsort. simpl in Hsort.
    enough (r <= in_t1 i) by lia. fold (readings_of a) in Hsort. fold (readings_of b) in Hsort.
    assert (Hb : in_t1 i ∈ readings_of b) by (apply elem_of_list_omap; eauto).
    revert Hsort Hin. generalize (readings_of a) as la. induction la as [|z la IH]; intros Hsort Hin; [by inversion Hin|].
    simpl in Hsort. apply StronglySorted_inv in Hsort as [H1 H2]. rewrite Forall_app in H2. destruct H2 as [_ H2]. rewrite Forall_forall in H2.
    apply elem_of_cons in Hin as [->|Hin]; [by apply H2|by apply IH].
  Qed.
End AgeProofs.
