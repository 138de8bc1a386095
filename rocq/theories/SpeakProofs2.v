(** * Executing templates while the languages change: goroutines. *)
From Verif Require Import GoBase GoStrings GoStringsProofs Regex DatasetModel LangModel DatasetSpec DatasetProofs DatasetProofs2 DatasetProofs3
  DatasetProofs5 TemplateModel TemplateSpec TemplateProofs2 TemplateProofs3 TemplateProofs4 TemplateProofs5 TemplateProofs6
  RenderSpec RenderProofs RenderProofs2 RenderProofs3 RenderProofs5 RenderProofs10 HoleSpec TransSpec TransProofs LangConc SpeakModel SpeakSpec SpeakProofs.

(** ** Every goroutine can go on, and they come to an end *)
Definition shorter (g' g : goroutine) : Prop :=
  match g with
  | Speaks (Ask _ _ k) => exists v, g' = Speaks (k v)
  | Writes (_ :: l) => g' = Writes l
  | _ => False
  end.
Definition fewer (qs ps : list goroutine) : Prop := exists i g g', ps !! i = Some g /\ shorter g' g /\ qs = <[i := g']> ps.
Lemma shorter_acc g : Acc shorter g.
Proof.
  destruct g as [m|l].
  - induction m as [a| | |l name k IH]; apply Acc_intro; intros g' Hg; [destruct Hg..|]. destruct Hg as [v ->]. apply IH.
  - induction l as [|x l IH]; apply Acc_intro; intros g' Hg; [destruct Hg|]. cbn in Hg. rewrite Hg. exact IH.
Qed.
Lemma fewer_cons g : Acc shorter g -> forall ps, Acc fewer ps -> Acc fewer (g :: ps).
Proof.
  induction 1 as [g _ IHg]. intros ps H. induction H as [ps Hacc IHs]. constructor. intros qs (i & x & x' & Hi & Hx & ->). destruct i as [|i]; cbn in Hi |- *.
  - injection Hi as ->. apply IHg; [done|]. by constructor.
  - apply IHs. by exists i, x, x'.
Qed.
Lemma fewer_acc ps : Acc fewer ps.
Proof.
  induction ps as [|p ps IH]; [|by apply fewer_cons; [apply shorter_acc|]]. constructor. intros qs (i & x & x' & Hi & _). by rewrite lookup_nil in Hi.
Qed.
Lemma hall_ends gs : forall ls, Acc (flip hall_step) (ls, gs).
Proof.
  induction (fewer_acc gs) as [gs _ IH]. intros ls. constructor. intros s Hs. unfold flip in Hs. remember (ls, gs) as s0 eqn:E0.
  destruct Hs as [ls1 gs1 i l name k Hi|ls1 gs1 i l w rest Hi]; injection E0 as -> ->; apply IH.
  - exists i, (Speaks (Ask l name k)), (Speaks (k (lget (ls l) name))). split_and!; [done| |done]. by exists (lget (ls l) name).
  - by exists i, (Writes ((l, w) :: rest)), (Writes rest).
Qed.
Lemma hall_stops ls gs : Acc (flip hall_step) (ls, gs) /\ ((forall s, ~ hall_step (ls, gs) s) -> Forall (fun g => match g with Speaks m => exists o, m = think o | Writes l => l = [] end) gs).
Proof.
  split; [apply hall_ends|]. intros Hs. apply Forall_lookup. intros i g Hg. destruct g as [m|l].
  - destruct m as [a| | |l name k]; [by exists (Ok a)|by exists Panic|by exists NoFuel|]. edestruct Hs. by econstructor.
  - destruct l as [|[l w] rest]; [done|]. edestruct Hs. by eapply hs_write.
Qed.

(** ** A course of the goroutines is a run of each speaker *)
Lemma runs_earlier {A} H i i' (m : talk A) j r : i <= i' -> runs H i' m j r -> exists j', j' <= j /\ runs H i m j' r.
Proof.
  intros Hi Hr. destruct Hr as [i' a|i'|i'|i' m' l name k j r Hm Hk].
  - exists i. split; [done|constructor].
  - exists i. split; [done|constructor].
  - exists i. split; [done|constructor].
  - exists j. split; [done|]. econstructor; [|done]. lia.
Qed.
Definition final (m : talk (heap * bytes)) (r : outcome (heap * bytes)) : Prop := m = think r.
Lemma course_runs T path i r : hall_course T path -> forall s m, s <= T -> (path s).2 !! i = Some (Speaks m) -> (path T).2 !! i = Some (Speaks (think r)) ->
  exists j, j <= T /\ runs (history path) s m j r.
Proof.
  intros Hc s m Hs. remember (T - s) as k eqn:Ek. revert s m Hs Ek. induction k as [|k IH]; intros s m Hs Ek Hm HT.
  - assert (s = T) as -> by lia. rewrite Hm in HT. injection HT as ->. exists T. split; [done|]. destruct r; constructor.
  - assert (Hlt : s < T) by lia. pose proof (Hc s Hlt) as Hst. destruct (path s) as [ls gs] eqn:Eps. cbn [snd] in Hm.
    assert (Cont : forall m', (path (S s)).2 !! i = Some (Speaks m') -> exists j, j <= T /\ runs (history path) (S s) m' j r) by (intros m' Hm'; apply (IH (S s)); [lia|lia|done|done]).
    assert (Same : (path (S s)).2 !! i = Some (Speaks m) -> exists j, j <= T /\ runs (history path) s m j r).
    { intros H1. destruct (Cont m H1) as (j & Hj & Hr). destruct (runs_earlier _ s _ _ _ _ (Nat.le_succ_diag_r s) Hr) as (j' & Hj' & Hr'). exists j'. split; [lia|done]. }
    remember (path (S s)) as s1 eqn:E1. remember (ls, gs) as s0 eqn:E0. destruct Hst as [ls1 gs1 i0 l name kk Hi|ls1 gs1 i0 l w rest Hi]; injection E0 as -> ->; cbn [snd] in *.
    + destruct (decide (i0 = i)) as [->|Hne].
      * rewrite Hm in Hi. injection Hi as ->. destruct (Cont (kk (lget (ls l) name))) as (j & Hj & Hr); [apply list_lookup_insert; by eapply lookup_lt_Some|].
        exists j. split; [done|]. apply (ru_ask _ s s); [done|]. unfold history at 2. rewrite Eps. exact Hr.
      * apply Same. by rewrite list_lookup_insert_ne.
    + destruct (decide (i0 = i)) as [->|Hne]; [by rewrite Hm in Hi|]. apply Same. by rewrite list_lookup_insert_ne.
Qed.
Lemma hear_runs {A} ls (m : talk A) : forall i, exists j, runs (fun _ => ls) i m j (hear ls m).
Proof.
  induction m as [a| | |l name k IH]; intros i; cbn [hear].
  - exists i. constructor.
  - exists i. constructor.
  - exists i. constructor.
  - destruct (IH (lget (ls l) name) (S i)) as [j Hj]. exists j. by apply (ru_ask _ i i).
Qed.
Lemma during_bound H l i page j out : during H l i page j out -> i <= j.
Proof. induction 1; lia. Qed.
Lemma during_agree H l g i page j out : during H l i page j out ->
  (forall m name, m < j -> Entry name ∈ page -> spoken (Some (H m l)) (Entry name) = spoken (Some g) (Entry name)) -> out = translation (Some g) page.
Proof.
  induction 1 as [i|i s page j out Hd IH|i m name page j out Hm Hd IH]; intros Ha.
  - done.
  - unfold translation in *. cbn [map concat]. rewrite IH; [done|]. intros m nm Hlt Hn. apply Ha; [done|by right].
  - unfold translation in *. cbn [map concat]. rewrite IH, Ha; [done| |by left|]; [pose proof (during_bound _ _ _ _ _ _ Hd); lia|]. intros m' nm Hlt Hn. apply Ha; [done|by right].
Qed.

Definition no_entries : lang := Lang [] [] ∅ ∅.
Section Speaks.
  Context (F : golib) (ord : heap -> gmap bytes value -> list (bytes * value)) (known : nat -> bool) (th : theap).
  Context (n : nat) (h : heap) (t d : loc) (k : nat).
  Context (Hk : known k = true) (Ha : answers h d (B "#") (Some (VOther k))).
  Lemma dget_lang r : dget n h d (B "#") = Ok r -> r = Some (VOther k).
  Proof using Ha. intros Hr. eapply answers_unique; [|exact Ha]. apply answers_gets. by exists n. Qed.
  (** The page, whatever the languages do. *)
  Lemma execute_page : exists r : outcome (heap * list part), (forall h' page, r = Ok (h', page) -> entries_from th t page) /\
    forall H i j res, runs H i (s_execute F ord known th n h t d) j res ->
      match r with Ok (h', page) => exists out, res = Ok (h', out) /\ during H k i page j out | Panic => res = Panic | NoFuel => res = NoFuel end.
  Proof using Hk Ha.
    unfold s_execute. destruct (dget n h d (B "#")) as [v| |] eqn:Hd; cbn [think kbind].
    - rewrite (dget_lang _ Hd), Hk. destruct (s_injects F ord th t k n (h, Some [d]) t (rtc_refl _ _)) as (r & Hg & Hm).
      exists (match r with Ok (st, page) => Ok (st.1, page) | Panic => Panic | NoFuel => NoFuel end). split.
      + destruct r as [[st page]| |]; try done. intros h' p [= _ <-]. by eapply Hg.
      + intros H i j res Hr. apply runs_bind in Hr as (i' & r0 & H1 & H2). apply Hm in H1. destruct r as [[st page]| |].
        * destruct H1 as (out & -> & Hd'). inversion H2; subst. by eexists.
        * subst r0. by destruct H2.
        * subst r0. by destruct H2.
    - exists Panic. split; [done|]. intros H i j res Hr. by inversion Hr.
    - exists NoFuel. split; [done|]. intros H i j res Hr. by inversion Hr.
  Qed.
  Lemma lang_here g : language_of (as_langs known (fun _ => g)) h d (Some g).
  Proof using Hk Ha. exists (Some (VOther k)). split; [exact Ha|]. left. exists k. split; [done|]. unfold as_langs. by rewrite Hk. Qed.
  Lemma translation_none page : translation None page = translation (Some no_entries) page.
  Proof. unfold translation. apply (f_equal (@concat ascii)), map_ext_in. intros [s|e] _; [done|]. cbn. by rewrite lookup_empty. Qed.
  (** It is the page of C120. *)
  Lemma page_same r : (forall H i j res, runs H i (s_execute F ord known th n h t d) j res ->
      match r with Ok (h', page) => exists out, res = Ok (h', out) /\ during H k i page j out | Panic => res = Panic | NoFuel => res = NoFuel end) ->
    forall langs lg, language_of langs h d lg -> execute F ord langs th n h t (Some d) = in_language lg r.
  Proof using Hk Ha.
    intros Hm langs lg Hl.
    assert (S : forall g, execute F ord (as_langs known (fun _ => g)) th n h t (Some d) = in_language (Some g) r).
    { intros g. rewrite <- alone_speaks. destruct (hear_runs (fun _ => g) (s_execute F ord known th n h t d) 0) as [j Hj]. apply Hm in Hj.
      destruct r as [[h' page]| |]; [|done|done]. destruct Hj as (out & -> & Hd). cbn. by rewrite (during_agree _ _ g _ _ _ _ Hd). }
    destruct lg as [g|].
    - rewrite <- S. eapply only_named; [done|apply lang_here|done].
    - transitivity (in_language (Some no_entries) r).
      + rewrite <- S. eapply only_named; [done|apply lang_here|]. intros name _. cbn. by rewrite lookup_empty.
      + destruct r as [[h' page]| |]; [|done|done]. cbn. by rewrite translation_none.
  Qed.
End Speaks.
(** The text of an execution that returns. *)
Lemma speaks_page F ord known th n h t d k T path i h' out : known k = true -> answers h d (B "#") (Some (VOther k)) -> hall_course T path ->
  (path 0).2 !! i = Some (Speaks (s_execute F ord known th n h t d)) -> (path T).2 !! i = Some (Speaks (Say (h', out))) ->
  exists page, entries_from th t page /\ (forall langs lg, language_of langs h d lg -> execute F ord langs th n h t (Some d) = Ok (h', translation lg page)) /\
    exists j, j <= T /\ during (history path) k 0 page j out.
Proof.
  intros Hk Ha Hc H0 HT. destruct (course_runs T path i (Ok (h', out)) Hc 0 _ ltac:(lia) H0 HT) as (j & Hj & Hr).
  destruct (execute_page F ord known th n h t d k Hk Ha) as (r & Hg & Hm). pose proof (page_same F ord known th n h t d k Hk Ha r Hm) as Hp.
  apply Hm in Hr. destruct r as [[h1 page]| |]; [|done|done]. destruct Hr as (o & [= <- <-] & Hd).
  exists page. split; [by eapply Hg|]. split; [exact Hp|]. by exists j.
Qed.
(** It panics exactly if it panics alone. *)
Lemma speaks_panic F ord known th n h t d k T path i langs lg : known k = true -> answers h d (B "#") (Some (VOther k)) -> hall_course T path ->
  (path 0).2 !! i = Some (Speaks (s_execute F ord known th n h t d)) -> (path T).2 !! i = Some (Speaks Break) ->
  language_of langs h d lg -> execute F ord langs th n h t (Some d) = Panic.
Proof.
  intros Hk Ha Hc H0 HT Hl. destruct (course_runs T path i Panic Hc 0 _ ltac:(lia) H0 HT) as (j & Hj & Hr).
  destruct (execute_page F ord known th n h t d k Hk Ha) as (r & Hg & Hm). rewrite (page_same F ord known th n h t d k Hk Ha r Hm langs lg Hl).
  apply Hm in Hr. destruct r as [[h1 page]| |]; [|done|done]. by destruct Hr as (o & [=] & Hd).
Qed.
(** If the entries named in the templates stay as they are, the text is that of an execution alone. *)
Lemma speaks_untouched F ord known th n h t d k T path i h' out : known k = true -> answers h d (B "#") (Some (VOther k)) -> hall_course T path ->
  (path 0).2 !! i = Some (Speaks (s_execute F ord known th n h t d)) -> (path T).2 !! i = Some (Speaks (Say (h', out))) ->
  (forall m name, m < T -> entry_of th t name -> spoken (Some (history path m k)) (Entry name) = spoken (Some (history path 0 k)) (Entry name)) ->
  execute F ord (as_langs known (history path 0)) th n h t (Some d) = Ok (h', out).
Proof.
  intros Hk Ha Hc H0 HT Hu. destruct (speaks_page F ord known th n h t d k T path i h' out Hk Ha Hc H0 HT) as (page & Hg & Hp & j & Hj & Hd).
  rewrite (Hp (as_langs known (history path 0)) (Some (history path 0 k))).
  - do 2 f_equal. symmetry. eapply during_agree; [exact Hd|]. intros m name Hm Hn. apply Hu; [lia|by apply Hg].
  - exists (Some (VOther k)). split; [exact Ha|]. left. exists k. split; [done|]. unfold as_langs. by rewrite Hk.
Qed.
