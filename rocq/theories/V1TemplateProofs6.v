(** * Both versions on the same template. *)
From Verif Require Import GoBase GoStrings GoStringsProofs Regex DatasetModel LangModel DatasetSpec DatasetProofs DatasetProofs2 DatasetProofs3
  DatasetProofs5 TemplateModel TemplateSpec TemplateProofs2 TemplateProofs3 TemplateProofs4 TemplateProofs5 TemplateProofs6 RenderSpec
  RenderProofs RenderProofs2 RenderProofs3 RenderProofs4 RenderProofs5 RenderProofs6 RenderProofs7
  V1Template V1TemplateSpec V1TemplateProofs V1TemplateProofs2 V1TemplateProofs3 V1TemplateProofs4 V1TemplateProofs5.
Local Open Scope Z_scope.

(** ** Loading *)
Lemma orphans_erase th th1 : same_but_fathers th th1 <-> th1 = erase <$> th.
Proof.
  split.
  - intros H. apply map_eq. intros t. rewrite H, lookup_fmap. done.
  - intros -> t. by rewrite lookup_fmap.
Qed.
Lemma load_both th th1 t s l : same_but_fathers th th1 -> reads1 s l -> Forall known_name l ->
  same_but_fathers (compile th t s).1 (compile1 th1 t s).1 /\ (compile1 th1 t s).2 = (compile th t s).2.
Proof.
  intros ->%orphans_erase Hr Hk. rewrite erase_compile, compile_compile_list, (same_reading s l Hr Hk).
  split; [by apply orphans_erase|done].
Qed.
Lemma new_both th th1 s l : same_but_fathers th th1 -> reads1 s l -> Forall known_name l ->
  same_but_fathers (new_template th s).1 (new_template1 th1 s).1 /\ (new_template1 th1 s).2 = (new_template th s).2.
Proof.
  intros H Hr Hk. unfold new_template, new_template1, talloc.
  assert (Hd : dom th1 = dom th :> gset loc) by (apply orphans_erase in H as ->; apply dom_fmap_L).
  rewrite Hd. set (t := fresh (dom th)).
  assert (H' : same_but_fathers (<[t := empty_tmpl]> th) (<[t := empty_tmpl]> th1)).
  { apply orphans_erase in H as ->. apply orphans_erase. by rewrite fmap_insert. }
  destruct (load_both _ _ t s l H' Hr Hk) as [H1 H2].
  destruct (compile _ t s) as [th2 ok], (compile1 _ t s) as [th2' ok']. simpl in *. subst. done.
Qed.

(** ** Executing *)
Section Both.
  Context (F : golib) (ord : heap -> gmap bytes value -> list (bytes * value)) (th th1 : theap) (h : heap) (lg : option lang).
  Context (Hsame : same_but_fathers th th1) (Hcl : closed th) (Hroot : rooted th) (Hown : own_names th) (Hst : straight th).
  Notation up sc := (Some (Some <$> sc : list (option loc))).
  Lemma found_both sc key : (forall r, found h sc key r -> found1 h (Some <$> sc) key (Some r)) /\
    forall r, found1 h (Some <$> sc) key r -> exists r', r = Some r' /\ found h sc key r'.
  Proof.
    split.
    - induction 1 as [|d sc key v H|d sc key r H H1 IH]; cbn [fmap list_fmap]; by constructor.
    - induction sc as [|d sc IH]; intros r H; cbn [fmap list_fmap] in H; inversion H as [| |? ? ? v Hv|? ? ? r' Hv Hf]; subst.
      + exists None. split; [done|constructor].
      + exists (Some v). split; [done|by constructor].
      + destruct (IH _ Hf) as (r0 & -> & Hr). exists r0. split; [done|by constructor].
  Qed.
  Lemma text_both sc key : (forall s, field_text F ord h sc key s -> text1 F ord h (Some <$> sc) key (Some s)) /\
    forall r, text1 F ord h (Some <$> sc) key r -> exists s, r = Some s /\ field_text F ord h sc key s.
  Proof.
    destruct (found_both sc key) as [H1 H2]. split.
    - intros s [H|H|v s' H Hv Hp]; apply H1 in H; [by apply t1_missing|by apply t1_nil|by eapply t1_value].
    - intros r [H|H|v s H Hv Hp|H]; apply H2 in H as (r' & E & H); try done; injection E as <-; eexists; (split; [done|]);
        [by apply ft_missing|by apply ft_nil|by eapply ft_value].
  Qed.
  Definition good (t : loc) (k : token) : Prop :=
    (forall s, k <> TRange s) /\ (forall s, k <> TCond s) /\
    forall n r, may_call k n -> visible th t n r <-> has th1 t n r.
  Lemma good_all t T l : th !! t = Some T -> t_root T = Some (map stored l) -> forall k, k ∈ l -> good t k.
  Proof.
    intros HT Hr k Hk. split; [|split].
    - intros s ->. by destruct (Hst t T l s HT Hr) as [H _].
    - intros s ->. by destruct (Hst t T l s HT Hr) as [_ H].
    - intros n r Hm. assert (Hh : has th1 t n (subs_of T !! n)).
      { eexists. split; [rewrite Hsame, HT; reflexivity|]. done. }
      split.
      + intros Hv. rewrite (Hown t T l k n r HT Hr Hk Hm Hv). done.
      + intros (T' & HT' & ->). destruct (visible_exists th Hcl Hroot t n) as [r Hv]; [by exists T|].
        pose proof (Hown t T l k n r HT Hr Hk Hm Hv) as Er. rewrite Hsame, HT in HT'. simpl in HT'. injection HT' as <-.
        unfold subs_of in *. simpl. by rewrite <- Er.
  Qed.
  Lemma choose_both t ns : (forall n r, n ∈ ns -> visible th t n r <-> has th1 t n r) -> forall q, choose th t ns q <-> choose1 th1 t ns q.
  Proof.
    induction ns as [|n ns IH]; intros H q; [split; inversion 1; subst; constructor|].
    assert (IH' := IH ltac:(intros m r Hm; apply H; by right)). split; inversion 1; subst.
    - apply c1_here. by apply H; [left|].
    - apply c1_next; [by apply H; [left|]|by apply IH'].
    - apply ch_here. by apply H; [left|].
    - apply ch_next; [by apply H; [left|]|by apply IH'].
  Qed.
  Lemma root_both t T : th1 !! t = Some T -> exists T', th !! t = Some T' /\ t_root T' = t_root T.
  Proof. rewrite Hsame, fmap_Some. intros (T' & HT & ->). by exists T'. Qed.
  Lemma root_both' t T : th !! t = Some T -> exists T', th1 !! t = Some T' /\ t_root T' = t_root T.
  Proof. intros HT. eexists. split; [rewrite Hsame, HT; reflexivity|]. done. Qed.
  Lemma select_names t s a field prefix v : separated ":"%char s a [field; prefix] -> good t (TRef s) ->
    forall n r, n ∈ [prefix ++ v; prefix] -> visible th t n r <-> has th1 t n r.
  Proof.
    intros Hs (_ & _ & Hg) n r Hn. apply Hg. apply elem_of_cons in Hn as [->|Hn]; [by eapply mc_select|].
    apply elem_of_list_singleton in Hn as ->. rewrite <- (app_nil_r prefix). by eapply mc_select.
  Qed.
  Lemma to_v1 :
    (forall h0 sc t h' out, renders F ord th lg h0 sc t h' out -> h0 = h -> h' = h /\ renders1 F ord h th1 lg (up sc) t (Some out)) /\
    (forall h0 sc t l h' out, renders_all F ord th lg h0 sc t l h' out -> h0 = h -> (forall k, k ∈ l -> good t k) ->
       h' = h /\ all1 F ord h th1 lg (up sc) t l (Some out)) /\
    (forall h0 sc q h' out, renders_opt F ord th lg h0 sc q h' out -> h0 = h -> h' = h /\ opt1 F ord h th1 lg (up sc) q (Some out)) /\
    (forall h0 sc t k h' out, renders_one F ord th lg h0 sc t k h' out -> h0 = h -> good t k ->
       h' = h /\ one1 F ord h th1 lg (up sc) t k (Some out)) /\
    (forall (h0 : heap) (sc : list loc) (t : loc) (b : bytes) (x : loc) (i n : nat) (ds : list (option loc)) (h' : heap) (out : bytes),
       loops F ord th lg h0 sc t b x i n ds h' out -> True).
  Proof.
    apply renders_mutind; try done.
    - intros h0 sc t T l h' out HT Hr _ IH ->. destruct (IH eq_refl (good_all t T l HT Hr)) as [-> H]. split; [done|].
      destruct (root_both' t T HT) as (T' & HT' & E). eapply r1_root; [done|by rewrite E|done].
    - intros h0 sc t T HT Hr ->. split; [done|]. destruct (root_both' t T HT) as (T' & HT' & E). eapply r1_not_compiled; [done|]. by rewrite E.
    - intros h0 sc t -> _. split; [done|constructor].
    - intros h0 sc t k l h1 h2 a b _ IH1 _ IH2 -> Hg. destruct (IH1 eq_refl (Hg k (elem_of_list_here _ _))) as [-> H1].
      destruct (IH2 eq_refl (fun k' Hk => Hg k' (elem_of_list_further _ _ _ Hk))) as [-> H2]. split; [done|]. by constructor.
    - intros h0 sc ->. split; [done|constructor].
    - intros h0 sc t h' out _ IH ->. destruct (IH eq_refl) as [-> H]. split; [done|by constructor].
    - intros h0 sc t s -> _. split; [done|constructor].
    - intros h0 sc t s -> _. split; [done|constructor].
    - intros h0 sc t s g v Hg Hv -> _. split; [done|by eapply o1_lang].
    - intros h0 sc t s Hno -> _. split; [done|by eapply o1_lang_missing].
    - intros h0 sc t s out H -> _. split; [done|]. by apply o1_var, text_both.
    - intros h0 sc d t s out Hs H -> _. split; [done|]. rewrite fmap_app. by apply o1_dump.
    - intros h0 sc t s H1 H2 -> _. split; [done|]. by apply o1_dump_other.
    - intros h0 sc t s a field prefix v r h' out Hs Hf Hc _ IH -> Hg. destruct (IH eq_refl) as [-> H]. split; [done|].
      eapply o1_select; [done|by apply text_both| |done]. apply (choose_both t); [|done]. by eapply select_names.
    - intros h0 sc t s a field x d h' out Hs Hv Hf Hd _ IH -> Hg. destruct (IH eq_refl) as [-> H]. split; [done|].
      eapply o1_narrow; [done| |by apply found_both|done|exact H]. apply Hg; [by eapply mc_ref|done].
    - intros h0 sc t s a field x r h' out Hs Hv Hf Hno _ IH -> Hg. destruct (IH eq_refl) as [-> H]. split; [done|].
      eapply o1_keep; [done| |by apply found_both|done|exact H]. apply Hg; [by eapply mc_ref|done].
    - intros h0 sc t s a ws x h' out Hs L1 L2 Hv _ IH -> Hg. destruct (IH eq_refl) as [-> H]. split; [done|].
      eapply o1_ref; [done..| |exact H]. apply Hg; [by eapply mc_ref|done].
    - intros h0 sc t s a ws Hs L2 Hv -> Hg. split; [done|]. eapply o1_ref_unknown; [done..|]. apply Hg; [by eapply mc_ref|done].
    - intros h0 sc t s d b x c xs h' out _ _ _ _ _ _ _ _ (Hg & _). by destruct (Hg s).
    - intros h0 sc t s d b x r q h' out _ _ _ _ _ _ _ _ (Hg & _). by destruct (Hg s).
    - intros h0 sc t s d b _ _ _ (Hg & _). by destruct (Hg s).
    - intros h0 sc t s d b x v q h' out u _ _ _ _ _ _ _ _ _ (_ & Hg & _). by destruct (Hg s).
    - intros h0 sc t s d b x v w q h' out u _ _ _ _ _ _ _ _ _ _ _ _ (_ & Hg & _). by destruct (Hg s).
    - intros h0 sc t s d b v w _ _ _ _ _ _ _ (_ & Hg & _). by destruct (Hg s).
    - intros h0 sc t s d b r p q h' out _ _ _ _ _ _ _ _ (_ & Hg & _). by destruct (Hg s).
  Qed.
  (** What the version 1 result must be. *)
  Definition gives (r : option bytes) (R : bytes -> Prop) : Prop := exists out, r = Some out /\ R out.
  Lemma from_v1 :
    (forall sc1 t r, renders1 F ord h th1 lg sc1 t r -> forall sc, sc1 = up sc -> gives r (renders F ord th lg h sc t h)) /\
    (forall sc1 t l r, all1 F ord h th1 lg sc1 t l r -> forall sc, sc1 = up sc -> (forall k, k ∈ l -> good t k) ->
       gives r (renders_all F ord th lg h sc t l h)) /\
    (forall sc1 q r, opt1 F ord h th1 lg sc1 q r -> forall sc, sc1 = up sc -> gives r (renders_opt F ord th lg h sc q h)) /\
    (forall sc1 t k r, one1 F ord h th1 lg sc1 t k r -> forall sc, sc1 = up sc -> good t k -> gives r (renders_one F ord th lg h sc t k h)) /\
    (forall (sc : list (option loc)) (t : loc) (b : bytes) (x : loc) (i n : nat) (es : list (option loc)) (r : option bytes),
       loops1 F ord h th1 lg sc t b x i n es r -> True).
  Proof.
    apply renders1_mutind; try done.
    - intros sc1 t T l r HT Hr _ IH sc ->. destruct (root_both t T HT) as (T' & HT' & E). rewrite Hr in E.
      destruct (IH sc eq_refl (good_all t T' l HT' E)) as (out & -> & H). exists out. split; [done|]. by eapply rd_root.
    - intros sc1 t T HT Hr sc ->. destruct (root_both t T HT) as (T' & HT' & E). rewrite Hr in E. eexists. split; [done|]. by eapply rd_not_compiled.
    - intros sc1 t sc -> _. eexists. split; [done|constructor].
    - intros sc1 t k l a b _ IH1 _ IH2 sc -> Hg. destruct (IH1 sc eq_refl (Hg k (elem_of_list_here _ _))) as (o1 & [= <-] & H1).
      destruct (IH2 sc eq_refl (fun k' Hk => Hg k' (elem_of_list_further _ _ _ Hk))) as (o2 & [= <-] & H2). eexists. split; [done|]. by eapply ra_cons.
    - intros sc1 t k l _ IH sc -> Hg. by destruct (IH sc eq_refl (Hg k (elem_of_list_here _ _))) as (o1 & ? & H1).
    - intros sc1 t k l a _ _ _ IH2 sc -> Hg. by destruct (IH2 sc eq_refl (fun k' Hk => Hg k' (elem_of_list_further _ _ _ Hk))) as (o2 & ? & H2).
    - intros sc1 sc ->. eexists. split; [done|constructor].
    - intros sc1 t r _ IH sc ->. destruct (IH sc eq_refl) as (o & -> & H). exists o. split; [done|by constructor].
    - intros sc1 t s sc -> _. eexists. split; [done|constructor].
    - intros sc1 t s sc -> _. eexists. split; [done|constructor].
    - intros sc1 t s g v Hg Hv sc -> _. eexists. split; [done|by eapply ro_lang].
    - intros sc1 t s Hno sc -> _. eexists. split; [done|by eapply ro_lang_missing].
    - intros sc1 t s r H sc [= ->] _. apply text_both in H as (o & -> & H). exists o. split; [done|by constructor].
    - intros sc1 d t s out Hs H sc [= E] _. exists out. split; [done|].
      symmetry in E. apply fmap_app_inv in E as (l1 & l2 & E1 & E2 & ->). destruct l2 as [|x [|]]; try done. injection E2 as ->. by apply ro_dump.
    - intros sc1 t s H1 H2 sc -> _. eexists. split; [done|by apply ro_dump_other].
    - intros sc1 t s a field prefix v q r Hs Hf Hc _ IH sc [= ->] Hg. destruct (IH sc eq_refl) as (o & -> & H). exists o. split; [done|].
      apply text_both in Hf as (v' & [= <-] & Hf). eapply ro_ref_select; [done|done| |done]. apply (choose_both t); [|done]. by eapply select_names.
    - intros sc1 t s a field prefix Hs Hf sc [= ->] _. by apply text_both in Hf as (v' & ? & Hf).
    - intros sc1 t s a field x d r Hs Hv Hf Hd _ IH sc [= ->] Hg. destruct (IH (d :: sc) eq_refl) as (o & -> & H). exists o. split; [done|].
      apply found_both in Hf as (v' & [= <-] & Hf). eapply ro_ref_narrow; [done| |done|done|exact H]. apply Hg; [by eapply mc_ref|done].
    - intros sc1 t s a field x v r Hs Hv Hf Hno _ IH sc [= ->] Hg. destruct (IH sc eq_refl) as (o & -> & H). exists o. split; [done|].
      apply found_both in Hf as (v' & [= <-] & Hf). eapply ro_ref_keep; [done| |done|done|exact H]. apply Hg; [by eapply mc_ref|done].
    - intros sc1 t s a field x Hs Hv Hf sc [= ->] Hg. by apply found_both in Hf as (v' & ? & Hf).
    - intros sc1 t s a ws x r Hs L1 L2 Hv _ IH sc -> Hg. destruct (IH sc eq_refl) as (o & -> & H). exists o. split; [done|].
      eapply ro_ref; [done..| |exact H]. apply Hg; [by eapply mc_ref|done].
    - intros sc1 t s a ws Hs L2 Hv sc -> Hg. eexists. split; [done|]. eapply ro_ref_unknown; [done..|]. apply Hg; [by eapply mc_ref|done].
    - intros sc t s d b x c xs r _ _ _ _ _ _ sc' _ (Hg & _). by destruct (Hg s).
    - intros sc t s d b x q r _ _ _ _ _ _ sc' _ (Hg & _). by destruct (Hg s).
    - intros sc t s d b x v _ _ _ _ sc' _ (Hg & _). by destruct (Hg s).
    - intros sc t s d b x _ _ _ sc' _ (Hg & _). by destruct (Hg s).
    - intros sc t s d b _ _ sc' _ (Hg & _). by destruct (Hg s).
    - intros sc t s d b x v w q r _ _ _ _ _ _ _ _ _ _ sc' _ (_ & Hg & _). by destruct (Hg s).
    - intros sc t s d b x v _ _ _ _ _ _ sc' _ (_ & Hg & _). by destruct (Hg s).
    - intros sc t s d b x v _ _ _ _ sc' _ (_ & Hg & _). by destruct (Hg s).
    - intros sc t s d b q v _ _ _ _ sc' _ (_ & Hg & _). by destruct (Hg s).
    - intros sc t s d b v _ _ _ sc' _ (_ & Hg & _). by destruct (Hg s).
    - intros sc t s d b q _ _ _ sc' _ (_ & Hg & _). by destruct (Hg s).
  Qed.
End Both.
Lemma execute_both F ord langs th th1 h t d : same_but_fathers th th1 -> closed th -> rooted th -> own_names th -> straight th ->
  (forall h' out, executes F ord langs th h t d h' out <-> h' = h /\ executes1 F ord langs th1 h t (Some d) (Some out)) /\
  ~ executes1 F ord langs th1 h t (Some d) None.
Proof.
  intros Hs Hcl Hr Ho Hst. split.
  - intros h' out. split.
    + intros (lg & Hl & H). apply (proj1 (to_v1 F ord th th1 h lg Hs Hcl Hr Ho Hst)) in H as [-> H]; [|done]. split; [done|]. by exists lg.
    + intros [-> (lg & Hl & H)]. exists lg. split; [done|].
      destruct (proj1 (from_v1 F ord th th1 h lg Hs Hcl Hr Ho Hst) _ _ _ H [d] eq_refl) as (o & [= <-] & Ho'). done.
  - intros (lg & Hl & H). by destruct (proj1 (from_v1 F ord th th1 h lg Hs Hcl Hr Ho Hst) _ _ _ H [d] eq_refl) as (o & ? & Ho').
Qed.
