(** * The concurrent cache against histories: last Set, atomic map, calls apart. *)
From Verif Require Import GoBase CacheModel CacheProofs CacheConc CacheConcProofs CacheConcSpec.
From Coq Require Import Lia ZifyBool ZifyNat.
Local Open Scope Z_scope.

Section P.
  Context {D : Type} (dnil : D).
  Implicit Types (k : bytes) (d : D) (s : shared D) (g : config D) (t : nat) (x : positive) (a : action D).

  (** ** First steps and thread states *)
  Definition tracks g (st : firsts_state (D:=D)) : Prop :=
    forall t, f_pending st t = match g_threads g t with Some (c, Start) => Some c | _ => None end.
  Lemma firsts_snoc acts a : firsts_from (acts ++ [a]) = first_step (firsts_from acts) a.
  Proof. unfold firsts_from. by rewrite fold_left_app. Qed.
  Lemma tstep_not_start s c p i s' p' : tstep dnil s c p i = Some (s', p') -> p' <> Start.
  Proof.
    intros Ht ->. destruct c, p; simpl in Ht; try done;
      repeat match type of Ht with
      | match ?e with _ => _ end = _ => destruct e eqn:?; simplify_eq
      | (let '(_, _) := ?e in _) = _ => destruct e eqn:?; simplify_eq
      | Some (_, if ?e then _ else _) = _ => destruct e; simplify_eq
      end.
    all: repeat case_match; done.
  Qed.
  Lemma tracks_step g a g' l st : tracks g st -> cstep dnil g a = Some (g', l) -> tracks g' (first_step st a).
  Proof.
    intros Ht Hs t'. destruct a as [t c|t i|t|mx'|ex']; simpl in Hs |- *; [| | |simplify_eq; apply Ht..].
    - destruct (g_threads g t) eqn:E; [done|]. simplify_eq. simpl. unfold upd. destruct (decide (t' = t)); [done|apply Ht].
    - destruct (g_threads g t) as [[c p]|] eqn:E; [|done]. destruct (tstep _ _ _ _ _) as [[s' p']|] eqn:E2; [|done]. simplify_eq. simpl.
      pose proof (tstep_not_start _ _ _ _ _ _ E2) as Hp. pose proof (Ht t) as Htt. rewrite E in Htt.
      unfold upd. destruct p; rewrite ?Htt; simpl; destruct (decide (t' = t)) as [->|]; try apply Ht; try (by destruct p'); rewrite Htt; by destruct p'.
    - destruct (g_threads g t) as [[c [| | | | | | | | | | | | |r]]|] eqn:E; simplify_eq. simpl. unfold upd.
      destruct (decide (t' = t)) as [->|]; [|apply Ht]. rewrite (Ht t), E. done.
  Qed.
  Lemma tracks_init mx ex : tracks (cinit mx ex) (firsts_from []).
  Proof. intros t. done. Qed.

  (** A reverse induction over executions with the actions at hand. *)
  Lemma exec_ind (P : list (action D) -> config D -> list (label D * shared D) -> Prop) g0 :
    P [] g0 [] ->
    (forall acts g tr a g' l, exec dnil g0 acts = Some (g, tr) -> P acts g tr -> cstep dnil g a = Some (g', l) ->
       P (acts ++ [a]) g' (tr ++ [(l, g_shared g')])) ->
    forall acts g tr, exec dnil g0 acts = Some (g, tr) -> P acts g tr.
  Proof.
    intros H0 HS acts. induction acts as [|a acts IH] using rev_ind; intros g tr He.
    - simpl in He. by simplify_eq.
    - rewrite exec_snoc in He. destruct (exec dnil g0 acts) as [[g1 tr1]|] eqn:E; [|done].
      destruct (cstep dnil g1 a) as [[g2 l]|] eqn:E2; [|done]. simplify_eq. eapply HS; eauto.
  Qed.
  Lemma exec_tracks mx ex acts g tr : exec dnil (cinit mx ex) acts = Some (g, tr) -> tracks g (firsts_from acts).
  Proof.
    revert acts g tr. apply exec_ind; [apply tracks_init|]. intros acts g tr a g' l _ Ht Hs. rewrite firsts_snoc. by eapply tracks_step.
  Qed.

  (** ** What is current is the last Set *)
  Lemma current_back s s' k d :
    allocated s -> grows (h_heap s) (h_heap s') -> h_items s' ⊆ h_items s -> current s' k d -> current s k d.
  Proof.
    intros Ha Hg Hi (x & e & Hx & He & Hd). pose proof (lookup_weaken _ _ _ _ Hx Hi) as Hx'. destruct (Ha _ _ Hx') as [e0 He0].
    destruct (Hg _ _ He0) as (e' & He' & Hd' & _). exists x, e0. split_and!; [done|done|]. congruence.
  Qed.
  Lemma tstep_items s c p i s' p' :
    tstep dnil s c p i = Some (s', p') ->
    h_items s' ⊆ match c, p with CSet k d, Start => <[k := in_loc i]> (h_items s) | CDel k, Start => delete k (h_items s)
                 | CFlush, Start => ∅ | _, _ => h_items s end.
  Proof.
    intros Ht. destruct c, p; try (apply verify_head in Ht as [-> _]; done); simpl in Ht; try done;
      repeat match type of Ht with
      | match ?a !! ?b with _ => _ end = _ => destruct (a !! b) eqn:?; simplify_eq
      | Some _ = Some _ => simplify_eq
      end; try done; try (simpl; by apply delete_subseteq).
    all: unfold cset in Ht.
    all: repeat match type of Ht with
      | context [cclean ?y ?q ?n ?rd] => let s2 := fresh "s2" in let r2 := fresh "r2" in let E := fresh "E" in
          destruct (cclean y q n rd) as [s2 r2] eqn:E; apply cclean_sub in E as [_ E]; simpl in E
      end.
    all: repeat match type of Ht with
      | context [if bool_decide ?b then _ else _] => destruct (bool_decide b)
      | context [match ?r with RPanic => _ | _ => _ end] => destruct r
      | context [match ?r with Some _ => _ | _ => _ end] => destruct r
      end; simplify_eq; simpl; try done.
  Qed.
  Lemma tstep_set_heap s k d i s' p' :
    tstep dnil s (CSet k d) Start i = Some (s', p') ->
    h_heap s !! in_loc i = None /\ h_heap s' = <[in_loc i := Entry (in_t1 i) (in_t2 i) 0 d]> (h_heap s).
  Proof.
    simpl. destruct (h_heap s !! in_loc i) eqn:El; [done|]. split; [done|].
    unfold cset in *. match goal with H : context [cclean ?y 10 _ _] |- _ => set (s1 := y) in * end.
    destruct (bool_decide (rd_max1 _ > 0 /\ _)); [|by simplify_eq].
    destruct (cclean s1 10 (in_now i) (reads s i)) as [s2 r2] eqn:E. apply cclean_sub in E as [E _]. destruct r2; simplify_eq; by rewrite E.
  Qed.
  Lemma last_set_snoc k (l : list (nat * call D)) t c : last_set k (l ++ [(t, c)]) = value_after k (last_set k l) c.
  Proof. unfold last_set. by rewrite fold_left_app. Qed.

  Lemma current_last_set mx ex acts g tr :
    exec dnil (cinit mx ex) acts = Some (g, tr) ->
    allocated (g_shared g) /\ forall k d, current (g_shared g) k d -> last_set k (firsts acts) = Some d.
  Proof.
    revert acts g tr. apply exec_ind.
    - split; [intros k x; simpl; by rewrite lookup_empty|]. intros k d (x & e & Hx & _). simpl in Hx. by rewrite lookup_empty in Hx.
    - intros acts g tr a g' l He [Ha Hl] Hs. pose proof (exec_tracks _ _ _ _ _ He) as Ht. unfold firsts in *. rewrite firsts_snoc.
      destruct a as [t c|t i|t|mx'|ex']; simpl in Hs |- *; [| | |by simplify_eq..].
      + destruct (g_threads g t) eqn:E; [done|]. simplify_eq. done.
      + destruct (g_threads g t) as [[c p]|] eqn:E; [|done]. destruct (tstep _ _ _ _ _) as [[s' p']|] eqn:E2; [|done]. simplify_eq. simpl.
        destruct (tstep_grows _ _ _ _ _ _ _ Ha E2) as [Ha' Hg]. split; [done|].
        pose proof (tstep_items _ _ _ _ _ _ E2) as Hi. pose proof (Ht t) as Htt. rewrite E in Htt. intros k d Hc.
        assert (Hold : forall k0, h_items s' ⊆ h_items (g_shared g) -> current s' k0 d -> last_set k0 (f_calls (firsts_from acts)) = Some d).
        { intros k0 Hs0 Hc0. apply Hl. by eapply current_back. }
        destruct p; rewrite Htt; simpl; try (apply Hold; [destruct c; done|done]).
        rewrite last_set_snoc. destruct c as [k' d'|k' dur|k' v|k'| |perc|v|]; simpl; try (by apply Hold).
        * apply tstep_set_heap in E2 as [Hn Hh]. destruct Hc as (x & e & Hx & Hex & Hd). rewrite Hh in Hex.
          pose proof (lookup_weaken _ _ _ _ Hx Hi) as Hx'. destruct (decide (k' = k)) as [->|Hne].
          -- rewrite lookup_insert in Hx'. simplify_eq. rewrite lookup_insert in Hex. by simplify_eq.
          -- rewrite lookup_insert_ne in Hx' by done. apply Hl. destruct (Ha _ _ Hx') as [e0 He0].
             rewrite lookup_insert_ne in Hex by congruence. exists x, e. done.
        * destruct (decide (k' = k)) as [->|Hne].
          -- destruct Hc as (x & e & Hx & _). pose proof (lookup_weaken _ _ _ _ Hx Hi) as Hx'. by rewrite lookup_delete in Hx'.
          -- apply Hold; [|done]. etrans; [exact Hi|]. by apply delete_subseteq.
        * destruct Hc as (x & e & Hx & _). pose proof (lookup_weaken _ _ _ _ Hx Hi) as Hx'. by rewrite lookup_empty in Hx'.
      + destruct (g_threads g t) as [[c [| | | | | | | | | | | | |r]]|] eqn:E; simplify_eq. done.
  Qed.

  (** ** Traces and actions side by side *)
  Definition label_of (a : action D) (l : label D) : Prop :=
    match a with
    | AInv t c => l = LInv t c
    | AStep t _ => l = LTau t
    | ARet t => exists c r, l = LRet t c r
    | AMax _ | AExpire _ => l = LAssign
    end.
  Lemma cstep_label g a g' l : cstep dnil g a = Some (g', l) -> label_of a l.
  Proof.
    destruct a as [t c|t i|t|mx'|ex']; simpl; intros Hs; [| | |by simplify_eq..].
    - destruct (g_threads g t); by simplify_eq.
    - destruct (g_threads g t) as [[c p]|]; [|done]. destruct (tstep _ _ _ _ _) as [[s' p']|]; by simplify_eq.
    - destruct (g_threads g t) as [[c [| | | | | | | | | | | | |r]]|]; simplify_eq. eauto.
  Qed.
  Lemma exec_labels g acts g' tr : exec dnil g acts = Some (g', tr) -> Forall2 (fun a ls => label_of a ls.1) acts tr.
  Proof.
    revert g g' tr. induction acts as [|a acts IH]; intros g g' tr He; simpl in He; [by simplify_eq; constructor|].
    destruct (cstep dnil g a) as [[g1 l]|] eqn:E; [|done]. destruct (exec dnil g1 acts) as [[g2 tr2]|] eqn:E2; [|done]. simplify_eq.
    constructor; [by eapply cstep_label|]. by eapply IH.
  Qed.
  Lemma exec_split g acts g' tr tr1 tr2 :
    exec dnil g acts = Some (g', tr) -> tr = tr1 ++ tr2 ->
    exists acts1 acts2 g1, acts = acts1 ++ acts2 /\ exec dnil g acts1 = Some (g1, tr1) /\ exec dnil g1 acts2 = Some (g', tr2).
  Proof.
    revert g tr tr1. induction acts as [|a acts IH]; intros g tr tr1 He Htr; simpl in He.
    - injection He as <- <-. symmetry in Htr. apply app_eq_nil in Htr as [-> ->]. exists [], [], g. done.
    - destruct (cstep dnil g a) as [[g1 l]|] eqn:E; [|done]. destruct (exec dnil g1 acts) as [[g2 tr3]|] eqn:E2; [|done].
      injection He as <- <-. destruct tr1 as [|ls tr1]; simpl in Htr.
      + exists [], (a :: acts), g. simpl. rewrite E, E2. subst. done.
      + simplify_eq. destruct (IH _ _ _ E2 eq_refl) as (a1 & a2 & g3 & -> & H1 & H2).
        exists (a :: a1), a2, g3. simpl. rewrite E, H1. done.
  Qed.
  Lemma last_state g acts g' tr l s : exec dnil g acts = Some (g', tr ++ [(l, s)]) -> g_shared g' = s.
  Proof.
    intros He. destruct acts as [|a acts _] using rev_ind; [simpl in He; simplify_eq; by destruct tr|].
    rewrite exec_snoc in He. destruct (exec dnil g acts) as [[g1 tr1]|]; [|done]. destruct (cstep dnil g1 a) as [[g2 l2]|]; [|done].
    injection He as <- He. by apply app_inj_tail in He as [_ [= _ ->]].
  Qed.

  Lemma hit_was_last_set mx ex acts g tr t k v d g' :
    exec dnil (cinit mx ex) acts = Some (g, tr) ->
    cstep dnil g (ARet t) = Some (g', LRet t (CGet k v) (RGet d false)) ->
    exists pre, within t (CGet k v) acts pre /\ (d = dnil \/ last_set k (firsts pre) = Some d).
  Proof.
    intros He Hs. destruct (conc_get_hit _ _ _ _ _ _ _ _ _ _ _ He Hs) as (tr2 & (tr1 & s0 & -> & Hf) & Hd).
    assert (Hquiet : forall b (trb : list (label D * shared D)), Forall2 (fun a ls => label_of a ls.1) b trb ->
       Forall (fun ls => ~ borders t ls.1) trb -> (forall c', AInv t c' ∉ b) /\ ARet t ∉ b).
    { intros b trb Hb Hf3. rewrite Forall_lookup in Hf3. split.
      - intros c' Hc'. apply elem_of_list_lookup in Hc' as [j Hj]. destruct (Forall2_lookup_l _ _ _ _ _ Hb Hj) as (ls & Hls & Hlab).
        simpl in Hlab. apply (Hf3 _ _ Hls). rewrite Hlab. done.
      - intros Hc'. apply elem_of_list_lookup in Hc' as [j Hj]. destruct (Forall2_lookup_l _ _ _ _ _ Hb Hj) as (ls & Hls & Hlab).
        simpl in Hlab. destruct Hlab as (c0 & r0 & Hlab). apply (Hf3 _ _ Hls). rewrite Hlab. done. }
    assert (Hbegan : forall pre tr3 g3, exec dnil (cinit mx ex) pre = Some (g3, tr1 ++ (LInv t (CGet k v), s0) :: tr3) ->
       exists u b, pre = u ++ AInv t (CGet k v) :: b /\ Forall2 (fun a ls => label_of a ls.1) b tr3).
    { intros pre tr3 g3 He3. pose proof (exec_labels _ _ _ _ He3) as Hl.
      apply Forall2_app_inv_r in Hl as (a & b & H1 & H2 & ->). inversion H2 as [|x ? b' ? Hx Hb]; subst. simpl in Hx.
      exists a, b'. split; [|done].
      destruct x as [t' c'|t' i|t'|mx'|ex']; simpl in Hx; [injection Hx as -> ->; done|done|naive_solver|done|done]. }
    destruct Hd as [(sj & Hin & Hc)|[-> _]].
    - apply elem_of_list_split in Hin as (u & w & ->).
      destruct (exec_split _ _ _ _ (tr1 ++ (LInv t (CGet k v), s0) :: u ++ [(LTau t, sj)]) w He) as (pre & post & g3 & -> & H1 & H2).
      { by rewrite <- !app_assoc, <- app_comm_cons, <- app_assoc. }
      destruct (Hbegan _ _ _ H1) as (a & b & -> & Hb). exists (a ++ AInv t (CGet k v) :: b). split.
      + exists a, b, post. split; [done|]. split; [done|]. eapply Hquiet; [|exact Hf].
        pose proof (exec_labels _ _ _ _ H2) as Hl. pose proof (Forall2_app Hb Hl) as Hall.
        by rewrite <- app_assoc in Hall.
      + right. destruct (current_last_set _ _ _ _ _ H1) as [_ Hl]. apply Hl.
        rewrite app_comm_cons, app_assoc in H1. apply last_state in H1. by rewrite H1.
    - destruct (Hbegan _ _ _ He) as (a & b & -> & Hb). exists (a ++ AInv t (CGet k v) :: b). split; [|by left].
      exists a, b, []. rewrite !app_nil_r. split; [done|]. split; [done|]. by eapply Hquiet.
  Qed.
End P.
