(** * Written templates are read back. *)
From Verif Require Import GoBase GoStrings DatasetModel DatasetSpec DatasetProofs LangModel TemplateModel TemplateSpec
  TemplateProofs TemplateProofs2 TemplateProofs3 TemplateProofs4 TemplateProofs5 TemplateProofs6 WriteSpec.

(** ** Marks *)
Lemma not_field c : c ∈ B "#&@?!{[" -> ~ field_char c.
Proof.
  intros Hc Hf. apply path_char_true in Hf.
  repeat (apply elem_of_cons in Hc as [->|Hc]; [by vm_compute in Hf|]). by apply elem_of_nil in Hc.
Qed.
Lemma name_field c : name_char c -> field_char c.
Proof.
  intros [H|H]; [by left; left|]. unfold field_char, entry_char.
  repeat (apply elem_of_cons in H as [->|H]); [left; right; right..|right|by apply elem_of_nil in H]; repeat constructor.
Qed.
Lemma name_class (w r : bytes) c : w <> [] -> Forall field_char w -> c ∈ B "#&@?!{[" ->
  exists d u, d <> c /\ c :: c :: w ++ r = c :: c :: d :: u.
Proof.
  intros Hw Hf Hc. destruct w as [|d u]; [done|]. exists d, (u ++ r). split; [|done]. intros ->. inversion Hf; subst.
  by apply (not_field c).
Qed.
(** How elements begin. *)
Lemma starts_mark s t r : starts s t r ->
  (exists u, s = B "%--" ++ u) \/ exists c d u, c ∈ B "#&@?!{[" /\ d <> c /\ s = c :: c :: d :: u.
Proof.
  assert (Hn : forall c w r', w <> [] -> Forall field_char w -> c ∈ B "#&@?!{[" ->
    exists c' d u, c' ∈ B "#&@?!{[" /\ d <> c' /\ c :: c :: w ++ r' = c' :: c' :: d :: u).
  { intros c w r' H1 H2 H3. destruct (name_class w r' c H1 H2 H3) as (d & u & ? & ?). by exists c, d, u. }
  destruct 1 as [body s r Hb Hl|w r Hw Hc|w r Hw Hc|w r Hw Hc|w r Hw Hc|w r Hw Hc|w r Hw Hc|w s r Hw Hc Hl|s r Hl].
  - left. by eexists.
  - right. apply (Hn ("#"%char) w (B "##" ++ r)); [done| |by repeat constructor]. eapply Forall_impl; [done|]. intros c. by left.
  - right. apply (Hn ("&"%char) w (B "&&" ++ r)); [done|done|by repeat constructor].
  - right. apply (Hn ("@"%char) w (B "@@" ++ r)); [done|done|by repeat constructor].
  - right. apply (Hn ("?"%char) w (B "??" ++ r)); [done|done|by repeat constructor].
  - right. apply (Hn ("!"%char) w (B "!!" ++ r)); [done|done|by repeat constructor].
  - right. apply (Hn ("{"%char) w (B "}}" ++ r)); [done|done|by repeat constructor].
  - right. apply (Hn ("["%char) w (B "]]" ++ s)); [done| |by repeat constructor]. eapply Forall_impl; [done|]. apply name_field.
  - right. eexists "["%char, "]"%char, _. split; [by repeat constructor|]. split; [done|]. reflexivity.
Qed.
Lemma mark_twice c : c ∈ B "#&@?!{[" -> [c; c] ∈ [B "%--"; B "##"; B "&&"; B "@@"; B "??"; B "!!"; B "{{"; B "[["].
Proof.
  intros Hc. repeat (apply elem_of_cons in Hc as [->|Hc]; [by repeat constructor|]). by apply elem_of_nil in Hc.
Qed.
Lemma no_element_in a s : no_mark a -> (s = [] \/ element_here s) ->
  forall x y, a = x ++ y -> y <> [] -> ~ element_here (y ++ s).
Proof.
  intros Hm Hs x y -> Hy (t & r & Ht).
  assert (Hnm : forall m b, m ∈ [B "%--"; B "##"; B "&&"; B "@@"; B "??"; B "!!"; B "{{"; B "[["] -> y <> m ++ b).
  { intros m b Hin ->. by apply (Hm x b m Hin). }
  assert (Hdash : forall u, s <> "-"%char :: u).
  { intros u ->. destruct Hs as [Hs|(t' & r' & Hs)]; [done|]. apply starts_mark in Hs as [(v & Hs)|(c & d & v & Hc & _ & Hs)]; [done|].
    injection Hs as <- _. repeat (apply elem_of_cons in Hc as [Hc|Hc]; [done|]). by apply elem_of_nil in Hc. }
  apply starts_mark in Ht as [(u & Ht)|(c & d & u & Hc & Hd & Ht)].
  - destruct y as [|y1 [|y2 [|y3 y]]]; [done|..]; simpl in Ht.
    + injection Ht as -> Ht. by apply Hdash in Ht.
    + injection Ht as -> -> Ht. by apply Hdash in Ht.
    + injection Ht as -> -> -> Ht. apply (Hnm (B "%--") y); [by repeat constructor|done].
  - destruct y as [|y1 [|y2 y]]; [done|..]; simpl in Ht.
    + injection Ht as -> Ht. subst s. destruct Hs as [Hs|(t' & r' & Hs)]; [done|].
      apply starts_mark in Hs as [(v & Hs)|(c' & d' & v & Hc' & _ & Hs)].
      * injection Hs as -> _ _. repeat (apply elem_of_cons in Hc as [Hc|Hc]; [done|]). by apply elem_of_nil in Hc.
      * injection Hs as -> Hs _. done.
    + injection Ht as -> -> Ht. apply (Hnm [c; c] y); [by apply mark_twice|done].
Qed.

(** ** Round trip *)
Lemma source_starts t r : (forall s, t <> TText s) -> writable t -> starts (source t ++ r) t r.
Proof.
  intros Ht Hw. destruct t as [s|s|s|s|s|s|s|s|s|]; cbn [source writable] in *; rewrite <- ?app_assoc;
    [by destruct (Ht s)|..|]; [|destruct Hw..|].
  - apply st_comment; [done|]. apply le_lf.
  - by apply st_lang.
  - by apply st_ref.
  - by apply st_range.
  - by apply st_cond.
  - by apply st_dump.
  - by apply st_var.
  - apply st_open; [done|done|]. apply le_lf.
  - apply st_close. apply le_lf.
Qed.
Lemma apart_tail t l : apart (t :: l) -> apart l.
Proof. intros H a x y b ->. by apply (H (t :: a) x y b). Qed.
Lemma reads_head s l : reads s l -> (forall x b, l <> TText x :: b) -> s = [] \/ element_here s.
Proof.
  intros H Hl. destruct H as [|s t r l H _|a s l Ha _ _ _]; [by left|right; by exists t, r|]. by edestruct Hl.
Qed.
Lemma page_before r lr l : reads r lr -> Forall writable l -> apart (l ++ lr) -> reads (page l ++ r) (l ++ lr).
Proof.
  intros Hr. induction l as [|t l IH]; intros Hw Ha; [done|]. inversion_clear Hw as [|? ? Ht Hw']. pose proof (apart_tail _ _ Ha) as Ha'.
  specialize (IH Hw' Ha'). unfold page. cbn [map concat app]. fold (page l). rewrite <- app_assoc.
  assert (Hd : (exists s, t = TText s) \/ forall s, t <> TText s) by (destruct t; naive_solver).
  destruct Hd as [[s ->]|Hd].
  - cbn [source]. destruct Ht as [Hs Hm]. assert (Hh : page l ++ r = [] \/ element_here (page l ++ r)).
    { apply (reads_head _ _ IH). intros x b E. apply (Ha [] s x b). simpl. by rewrite E. }
    apply reads_text; [done| |done|done]. by apply no_element_in.
  - eapply reads_element; [|done]. by apply source_starts.
Qed.
Lemma page_reads l : Forall writable l -> apart l -> reads (page l) l.
Proof.
  intros Hw Ha. pose proof (page_before [] [] l reads_end Hw) as H. rewrite !app_nil_r in H. by apply H.
Qed.

(** ** Trees *)
Lemma node_ind' (P : node -> Prop) : (forall t, P (Word t)) -> (forall nm body, Forall P body -> P (Part nm body)) -> forall n, P n.
Proof.
  intros H1 H2. fix IH 1. intros [t|nm body]; [apply H1|]. apply H2. induction body as [|n body IHb]; constructor; [apply IH|apply IHb].
Qed.
Lemma words_balanced n : proper n -> forall d r, balanced d (node_words n ++ r) <-> balanced d r.
Proof.
  induction n as [t|nm body IH] using node_ind'; intros Hp d r; inversion Hp as [? H1 H2|? ? H1]; subst.
  - simpl. destruct t; try done. by destruct (H1 s).
  - cbn [node_words app balanced]. rewrite <- app_assoc. cbn [app].
    assert (Hb : forall d r', balanced d (flat_map node_words body ++ r') <-> balanced d r').
    { clear Hp. induction body as [|n body IHb]; [done|]. inversion_clear IH as [|? ? Hn Hbody]. intros d' r'.
      cbn [flat_map]. rewrite <- app_assoc, Hn; [|apply H1; by left]. apply IHb; [done|]. intros m Hm. apply H1. by right. }
    rewrite Hb. done.
Qed.
Lemma all_balanced ns : Forall proper ns -> balanced 0 (words ns).
Proof.
  intros H. rewrite <- (app_nil_r (words ns)). revert H. induction ns as [|n ns IH]; intros H; [done|]. inversion_clear H.
  unfold words. cbn [flat_map]. rewrite <- app_assoc, words_balanced by done. by apply IH.
Qed.
(** What can follow the words of a list of nodes. *)
Definition stop (r : list token) : Prop := r = [] \/ exists r', r = TClose :: r'.
Lemma words_inj ns : forall ms r1 r2, Forall proper ns -> Forall proper ms -> stop r1 -> stop r2 ->
  words ns ++ r1 = words ms ++ r2 -> ns = ms /\ r1 = r2.
Proof.
  induction ns as [ns IH] using (well_founded_induction (Wf_nat.well_founded_ltof _ (fun l => length (words l)))).
  intros ms r1 r2 Hn Hm S1 S2 E.
  destruct ns as [|n ns].
  - destruct ms as [|m ms]; [done|]. exfalso. inversion_clear Hm as [|? ? Hm1 _]. unfold words in E. cbn [flat_map app] in E.
    inversion Hm1 as [t H1 H2|nm body H1]; subst m; cbn [node_words app] in E; destruct S1 as [->|[r' ->]]; try done.
    by injection E as <- _.
  - destruct ms as [|m ms].
    { exfalso. inversion_clear Hn as [|? ? Hn1 _]. unfold words in E. cbn [flat_map app] in E.
      inversion Hn1 as [t H1 H2|nm body H1]; subst n; cbn [node_words app] in E; destruct S2 as [->|[r' ->]]; try done.
      by injection E as -> _. }
    inversion_clear Hn as [|? ? Hn1 Hn2]. inversion_clear Hm as [|? ? Hm1 Hm2].
    unfold words in E. cbn [flat_map] in E. fold (words ns) (words ms) in E. rewrite <- !app_assoc in E.
    inversion Hn1 as [t H1 H2|nm body H1]; inversion Hm1 as [t' H1' H2'|nm' body' H1']; subst; cbn [node_words app] in E.
    + injection E as -> E. destruct (IH ns) with (ms := ms) (r1 := r1) (r2 := r2) as [-> ->]; try done.
      unfold ltof, words. simpl. lia.
    + injection E as -> _. by destruct (H1 nm').
    + injection E as <- _. by destruct (H1' nm).
    + injection E as -> E. rewrite <- !app_assoc in E. cbn [app] in E. fold (words body) (words body') in E.
      destruct (IH body) with (ms := body') (r1 := TClose :: words ns ++ r1) (r2 := TClose :: words ms ++ r2) as [-> E'].
      * unfold ltof, words. cbn [flat_map node_words]. rewrite app_length. simpl. rewrite app_length. simpl. lia.
      * by apply Forall_forall.
      * by apply Forall_forall.
      * right. by eexists.
      * right. by eexists.
      * done.
      * injection E' as E'. destruct (IH ns) with (ms := ms) (r1 := r1) (r2 := r2) as [-> ->]; try done.
        unfold ltof, words. cbn [flat_map node_words]. rewrite app_length. simpl. lia.
Qed.
Lemma layout_words is l : layout is l -> words (map node_of is) = l /\ Forall proper (map node_of is).
Proof.
  induction 1 as [|t is l H1 H2 _ [IH1 IH2]|x name body is l1 l2 _ [IH1 IH2] _ [IH3 IH4]]; [by split; [|constructor]|..].
  - split; [|cbn [map node_of]; constructor; [by constructor|done]].
    cbn [map]. unfold words. cbn [flat_map node_of node_words app]. f_equal. done.
  - split.
    + cbn [map]. unfold words in *. cbn [flat_map node_of node_words app]. rewrite IH1, IH3, <- app_assoc. done.
    + cbn [map node_of]. constructor; [|done]. constructor. by apply Forall_forall.
Qed.
Lemma page_tree th ns : Forall proper ns -> Forall writable (words ns) -> apart (words ns) ->
  exists th' t is, new_template th (page (words ns)) = (th', Some t) /\ map node_of is = ns /\ loaded th' ∅ t is /\
    NoDup (t :: flat_map box_locs is).
Proof.
  intros Hp Hw Ha. pose proof (page_reads _ Hw Ha) as Hr. pose proof (all_balanced _ Hp) as Hb.
  destruct (new_template_boxes th _ _ Hr Hb) as (th' & t & is & T & Hnew & Hlay & Hl & _ & Hnt & Hnd & _).
  exists th', t, is. split; [done|]. split; [|split; [done|by constructor]].
  apply layout_words in Hlay as [E Hpr]. destruct (words_inj (map node_of is) ns [] []) as [? _]; try done; try by left.
  by rewrite !app_nil_r.
Qed.

(** ** Any text *)
Lemma escaped_writable s : Forall writable (escaped s).
Proof.
  induction s as [|c s IH]; [constructor|]. cbn [escaped flat_map app]. constructor; [|constructor; [|done]].
  - split; [done|]. intros a b m Hm E. repeat (apply elem_of_cons in Hm as [->|Hm]; [destruct a as [|? [|]]; discriminate|]).
    by apply elem_of_nil in Hm.
  - intros a b E. by destruct a.
Qed.
Lemma escaped_apart s : apart (escaped s).
Proof.
  intros a x y b. revert a. induction s as [|c s IH]; intros a E; [by destruct a|].
  cbn [escaped flat_map app] in E. destruct a as [|t1 [|t2 a]]; cbn [app] in E.
  - discriminate.
  - injection E as _ E _. discriminate.
  - injection E as _ _ E. by apply (IH a).
Qed.
Lemma escaped_balanced s r d : balanced d (escaped s ++ r) <-> balanced d r.
Proof. induction s as [|c s IH]; [done|]. cbn [escaped flat_map app balanced]. apply IH. Qed.
Lemma escaped_params F ord th n lg inj st t s : exists outs, do_params F ord th n lg inj st t (map stored (escaped s)) = Ok (st, outs) /\ concat outs = s.
Proof.
  induction s as [|c s (outs & IH & E)]; [by exists []|]. exists ([c] :: outs). cbn [escaped flat_map app map stored].
  cbn [do_params]. unfold do_param at 1. cbn [p_type p_data]. rewrite bool_decide_eq_true_2 by done. cbn [obind].
  unfold do_param at 1. cbn [p_type p_data]. rewrite bool_decide_eq_false_2, bool_decide_eq_true_2 by done. cbn [obind].
  change (flat_map _ s) with (escaped s). rewrite IH. cbn [obind app concat]. by rewrite E.
Qed.

Lemma layout_leaves is l : layout is l -> (forall n, TOpen n ∉ l) -> leaves is = l.
Proof.
  induction 1 as [|tk is l H1 H2 _ IH|x name body is l1 l2 _ _ _ _]; intros Hn; [done|..].
  - unfold leaves. cbn [flat_map app]. f_equal. apply IH. intros n Hin. apply (Hn n). by right.
  - exfalso. apply (Hn name). by left.
Qed.
Lemma escaped_executes F ord langs th s : exists th' t, new_template th (page (escaped s)) = (th', Some t) /\
  (forall h n, execute F ord langs th' (S n) h t None = Ok (h, s)) /\
  (forall h d, chain h d -> exists n0, forall n, (n0 <= n)%nat -> execute F ord langs th' n h t (Some d) = Ok (h, s)).
Proof.
  pose proof (page_reads _ (escaped_writable s) (escaped_apart s)) as Hr.
  assert (Hb : balanced 0 (escaped s)) by (rewrite <- (app_nil_r (escaped s)); by apply escaped_balanced).
  destruct (new_template_boxes th _ _ Hr Hb) as (th' & t & is & T & Hnew & Hlay & (T' & HT & Hroot & _) & _).
  exists th', t. split; [done|].
  assert (Hl : leaves is = escaped s).
  { apply layout_leaves; [done|]. intros n Hin. unfold escaped in Hin. apply elem_of_list_In, in_flat_map in Hin as (c & _ & [?|[?|[]]]); done. }
  assert (Hi : forall n lg st, injector F ord th' (S n) lg st t = Ok (st, s)).
  { intros n lg st. cbn [injector]. rewrite HT, Hroot, Hl.
    destruct (escaped_params F ord th' n lg (injector F ord th' n lg) st t s) as (outs & -> & E). cbn [obind]. by rewrite E. }
  split.
  - intros h n. unfold execute. by rewrite Hi.
  - intros h d Hc. assert (Hg : exists n r, dget n h d (B "#") = Ok r).
    { induction Hc as [l m Hl'|l d Hl' Hc (n & r & IH)].
      - exists 1%nat. simpl. rewrite Hl'. eexists. reflexivity.
      - exists (S n), r. cbn [dget]. by rewrite Hl'. }
    destruct Hg as (n & r & Hg). exists (S n). intros n' Hn'. unfold execute.
    rewrite (dget_mono n n' h d (B "#") (Ok r)); [|lia|done|done]. cbn [obind].
    destruct n' as [|n']; [lia|]. by rewrite Hi.
Qed.
