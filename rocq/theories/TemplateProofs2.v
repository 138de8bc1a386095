(** * The first pass of the compiler (continued): the words of a text. *)
From Verif Require Import GoBase GoStrings GoStringsProofs Regex DatasetModel TemplateModel TemplateSpec TemplateProofs.

Lemma wrapped_sound g1 g2 c p D s m l : (forall x r, p x = true -> matches D (x :: r) = []) ->
  matches (wrapped g1 g2 c p D) s = m :: l ->
  exists w r m' l', w <> [] /\ Forall (fun x => p x = true) w /\ s = [c; c] ++ w ++ r /\ matches D r = m' :: l' /\
    m_groups m = m_groups m' ++ [(g2, w); (g1, [c])] /\ m_rest m = m_rest m'.
Proof.
  intros HD. rewrite matches_wrapped by done. destruct s as [|x [|y [|z s]]]; try done.
  destruct (is c x) eqn:Hx; [|done]. destruct (is c y) eqn:Hy; [|done]. destruct (p z) eqn:Hz; [|done].
  apply is_true in Hx as ->. apply is_true in Hy as ->. cbn [andb].
  pose proof (span_app p s) as Hsp. destruct (span p s) as [w r]. destruct Hsp as (-> & Hw & _). cbn [fst snd].
  destruct (matches D r) as [|m' l'] eqn:E; [done|]. cbn [map]. intros [= <- _].
  exists (z :: w), r, m', l'. repeat split; try done. by constructor.
Qed.
Lemma wrapped_complete g1 g2 c p D w r m' l' : (forall x r, p x = true -> matches D (x :: r) = []) ->
  w <> [] -> Forall (fun x => p x = true) w -> matches D r = m' :: l' ->
  exists m l, matches (wrapped g1 g2 c p D) ([c; c] ++ w ++ r) = m :: l /\
    m_groups m = m_groups m' ++ [(g2, w); (g1, [c])] /\ m_rest m = m_rest m'.
Proof.
  intros HD Hne Hw E. rewrite matches_wrapped by done. destruct w as [|z w]; [done|].
  apply Forall_cons in Hw as [Hz Hw]. cbn [app]. rewrite !is_refl, Hz. cbn [andb].
  rewrite span_unique; [|done|]. 2:{ intros x r' ->. destruct (p x) eqn:Hx; [|done]. by rewrite HD in E. }
  cbn [fst snd]. rewrite E. cbn [map]. eexists _, _. split; [reflexivity|]. done.
Qed.
Lemma wrapped_first g1 g2 c p D x s : x <> c -> matches (wrapped g1 g2 c p D) (x :: s) = [].
Proof.
  intros Hx. unfold wrapped. rewrite matches_cat. cbn [matches]. rewrite matches_chr.
  assert (E : is c x = false) by (unfold is; by apply bool_decide_eq_false). by rewrite E.
Qed.
Lemma str_stop p d w x r : p d = false -> p x = true -> matches (str (d :: w)) (x :: r) = [].
Proof.
  intros Hd Hx. rewrite matches_str. simpl. destruct (ascii_dec d x) as [->|]; [congruence|done].
Qed.
Lemma cat_nil a b s : matches a s = [] -> matches (Cat a b) s = [].
Proof. intros H. by rewrite matches_cat, H. Qed.
Lemma str_sound w s m l : matches (str w) s = m :: l -> s = w ++ m_rest m /\ m_groups m = [].
Proof.
  rewrite matches_str. destruct (strip_prefix w s) as [r|] eqn:E; [|done]. apply strip_prefix_some in E as ->.
  by intros [= <- _].
Qed.
Lemma str_complete w r : matches (str w) (w ++ r) = [Mtch w [] r].
Proof. by rewrite matches_str, (proj2 (strip_prefix_some w (w ++ r) r) eq_refl). Qed.

Definition lang_re := wrapped 4 5 "#" word (str (B "##")).
Definition ref_re := wrapped 6 7 "&" path_char (str (B "&&")).
Definition range_re := wrapped 8 9 "@" path_char (str (B "@@")).
Definition cond_re := wrapped 10 11 "?" path_char (str (B "??")).
Definition dump_re := wrapped 12 13 "!" path_char (str (B "!!")).
Definition var_re := wrapped 14 15 "{" path_char (str (B "}}")).
Definition close_re := Cat (str (B "[[")) (Cat (Group 16 (str (B "]"))) (Cat (str (B "]")) (Opt (Group 17 newline)))).
Definition open_tail := Cat (str (B "]]")) (Opt (Group 20 newline)).
Definition open_re := wrapped 18 19 "[" box_char open_tail.
Lemma meta_alts : meta = Alt comment_re (Alt lang_re (Alt ref_re (Alt range_re (Alt cond_re (Alt dump_re (Alt var_re (Alt close_re open_re))))))).
Proof. reflexivity. Qed.
Lemma matches_meta s : matches meta s = matches comment_re s ++ matches lang_re s ++ matches ref_re s ++ matches range_re s ++
  matches cond_re s ++ matches dump_re s ++ matches var_re s ++ matches close_re s ++ matches open_re s.
Proof. by rewrite meta_alts. Qed.
Lemma close_matches s m l : matches close_re s = m :: l ->
  exists s', s = B "[[]]" ++ s' /\ line_end s' (m_rest m) /\ group 16 (m_groups m) = B "]" /\
    forall k, k <> 16%nat -> k <> 17%nat -> group k (m_groups m) = [].
Proof.
  intros E. assert (Hm : m ∈ matches close_re s) by (rewrite E; by left).
  revert E. unfold close_re. rewrite matches_cat, matches_str. destruct (strip_prefix (B "[[") s) as [s1|] eqn:E1; [|done].
  apply strip_prefix_some in E1 as ->. cbn [flat_map m_rest m_text m_groups]. rewrite app_nil_r, matches_cat. cbn [matches].
  rewrite matches_str. destruct (strip_prefix (B "]") s1) as [s2|] eqn:E2; [|done]. apply strip_prefix_some in E2 as ->.
  cbn [flat_map map m_rest m_text m_groups]. rewrite app_nil_r.
  rewrite matches_str. destruct (strip_prefix (B "]") s2) as [s3|] eqn:E3; [|done]. apply strip_prefix_some in E3 as ->.
  cbn [flat_map map m_rest m_text m_groups]. rewrite app_nil_r.
  destruct (matches_opt_newline 17 s3) as (m' & l' & E4 & Hle & Hg & _). cbn [matches] in E4. rewrite E4.
  cbn [map]. intros [= <- _]. cbn [m_rest m_groups]. exists s3. split; [done|]. split; [done|].
  assert (Hnot : forall k, k <> 17%nat -> forall gs, group k (m_groups m' ++ gs) = group k gs).
  { intros k Hk gs. apply (group_not_set (Opt (Group 17 newline)) s3).
    - cbn [matches]. rewrite E4. by left.
    - simpl. tauto. }
  split.
  - rewrite <- !app_assoc, Hnot by done. done.
  - intros k H16 H17. rewrite <- !app_assoc, Hnot by done. simpl.
    destruct (Nat.eqb_spec k 16); [done|]. done.
Qed.
Lemma open_tail_matches r m l : matches open_tail r = m :: l ->
  exists s, r = B "]]" ++ s /\ line_end s (m_rest m) /\ (forall k, k <> 20%nat -> forall gs, group k (m_groups m ++ gs) = group k gs).
Proof.
  intros E. assert (Hm : m ∈ matches open_tail r) by (rewrite E; by left).
  assert (Hg : forall k, k <> 20%nat -> forall gs, group k (m_groups m ++ gs) = group k gs).
  { intros k Hk gs. eapply group_not_set; [exact Hm|]. simpl. tauto. }
  revert E. unfold open_tail. rewrite matches_cat, matches_str. destruct (strip_prefix (B "]]") r) as [s|] eqn:Es; [|done].
  apply strip_prefix_some in Es as ->. cbn [flat_map m_rest m_text m_groups]. rewrite app_nil_r.
  destruct (matches_opt_newline 20 s) as (m' & l' & E & Hle & _ & _). rewrite E. cbn [map]. intros [= <- _].
  cbn [m_rest m_groups] in *. exists s. done.
Qed.
Lemma open_tail_some s : exists m l, matches open_tail (B "]]" ++ s) = m :: l /\ line_end s (m_rest m).
Proof.
  unfold open_tail. rewrite matches_cat, str_complete. cbn [flat_map m_rest m_text m_groups]. rewrite app_nil_r.
  destruct (matches_opt_newline 20 s) as (m' & l' & E & Hle & _ & _). rewrite E. cbn [map]. by eexists _, _.
Qed.
Lemma close_some s : exists m l, matches close_re (B "[[]]" ++ s) = m :: l.
Proof.
  unfold close_re. change (B "[[]]" ++ s) with (B "[[" ++ B "]" ++ B "]" ++ s).
  rewrite matches_cat, str_complete. cbn [flat_map m_rest m_text m_groups]. rewrite app_nil_r, matches_cat. cbn [matches].
  rewrite str_complete. cbn [map flat_map m_rest m_text m_groups]. rewrite app_nil_r, str_complete. cbn [map flat_map m_rest m_text m_groups].
  rewrite app_nil_r. destruct (matches_opt_newline 17 s) as (m' & l' & E & Hle & _ & _). cbn [matches] in E. rewrite E. by eexists _, _.
Qed.

Lemma forall_word w : Forall (fun x => word x = true) w <-> Forall entry_char w.
Proof. split; intros H; eapply Forall_impl; try exact H; intros; by apply word_true. Qed.
Lemma forall_path w : Forall (fun x => path_char x = true) w <-> Forall field_char w.
Proof. split; intros H; eapply Forall_impl; try exact H; intros; by apply path_char_true. Qed.
Lemma forall_box w : Forall (fun x => box_char x = true) w <-> Forall name_char w.
Proof. split; intros H; eapply Forall_impl; try exact H; intros; by apply box_char_true. Qed.
Lemma open_stop x r : box_char x = true -> matches open_tail (x :: r) = [].
Proof. intros Hx. apply cat_nil. by apply (str_stop box_char). Qed.

(** What the head of the list of matches is. *)
Definition finds (r : re) (s : bytes) (t : token) (rest : bytes) : Prop :=
  exists m l, matches r s = m :: l /\ element m = stored t /\ m_rest m = rest.
Definition sound (r : re) : Prop := forall s m l, matches r s = m :: l -> exists t, starts s t (m_rest m) /\ element m = stored t.

Lemma element_groups m m' : (forall k, group k (m_groups m) = group k (m_groups m')) -> element m = element m'.
Proof. intros H. unfold element. by rewrite !H. Qed.

Lemma comment_element m : group 1 (m_groups m) = B "%" -> element m = Param 1 (group 2 (m_groups m)).
Proof. intros H. unfold element. rewrite H. done. Qed.
Lemma comment_sound : sound comment_re.
Proof.
  intros s m l. rewrite matches_comment. destruct (strip_prefix (B "%--") s) as [s'|] eqn:Es; [|done].
  apply strip_prefix_some in Es as ->.
  intros (w & r & l' & -> & HK & Hmin)%(flat_first (fun w r => map (fun m => Mtch (B "%--" ++ w ++ m_text m) (m_groups m ++ [(2%nat, w); (1%nat, B "%")]) (m_rest m))
                                     (matches tail_re r))).
  destruct (matches tail_re r) as [|m' l''] eqn:E; [done|]. cbn [map] in HK. injection HK as <- _. cbn [m_rest].
  assert (Hg : forall k, k <> 3%nat -> forall gs, group k (m_groups m' ++ gs) = group k gs).
  { intros k Hk gs. apply (group_not_set tail_re r); [rewrite E; by left|]. simpl. tauto. }
  destruct (matches_tail _ _ _ E) as (s & -> & Hle & _).
  exists (TComment w). split.
  - apply st_comment; [|done]. intros a b ->.
    assert (H : matches tail_re ((B "--%" ++ b) ++ B "--%" ++ s) = []).
    { specialize (Hmin a (B "--%" ++ b) eq_refl). destruct (matches tail_re ((B "--%" ++ b) ++ B "--%" ++ s)); [done|].
      exfalso. specialize (Hmin ltac:(done)). done. }
    rewrite <- app_assoc in H. destruct (matches_tail_some (b ++ B "--%" ++ s)) as (? & ? & E' & _). rewrite E' in H. done.
  - rewrite comment_element; cbn [m_groups]; rewrite !Hg by done; done.
Qed.
Lemma comment_finds body s r : (forall a b, body <> a ++ B "--%" ++ b) -> line_end s r ->
  finds comment_re (B "%--" ++ body ++ B "--%" ++ s) (TComment body) r.
Proof.
  intros Hb Hle. unfold finds. rewrite matches_comment, (proj2 (strip_prefix_some _ _ (body ++ B "--%" ++ s)) eq_refl).
  edestruct (flat_at (fun w r => map (fun m => Mtch (B "%--" ++ w ++ m_text m) (m_groups m ++ [(2%nat, w); (1%nat, B "%")]) (m_rest m))
                                     (matches tail_re r)) body (B "--%" ++ s)) as (l' & E).
  { intros a b -> Hne. assert (H : strip_prefix (B "--%") (b ++ B "--%" ++ s) = None).
    { destruct (strip_prefix _ _) as [q|] eqn:E; [|done]. exfalso. apply strip_prefix_some in E.
      destruct b as [|x1 [|x2 [|x3 b]]]; [done|simpl in E; congruence..|].
      injection E as -> -> -> _. apply (Hb a b). done. }
    unfold tail_re. rewrite cat_nil; [done|]. by rewrite matches_str, H. }
  destruct (matches_tail_some s) as (m & l & E' & Hle' & _). rewrite E' in E. cbn [map] in E.
  eexists _, _. split; [exact E|]. split.
  - assert (Hg : forall k, k <> 3%nat -> forall gs, group k (m_groups m ++ gs) = group k gs).
    { intros k Hk gs. apply (group_not_set tail_re (B "--%" ++ s)); [rewrite E'; by left|]. simpl. tauto. }
    rewrite comment_element; cbn [m_groups]; rewrite !Hg by done; done.
  - cbn [m_rest]. by eapply line_end_unique.
Qed.

Ltac simple_sound g cls :=
  let s := fresh "s" in let m := fresh "m" in let l := fresh "l" in let H := fresh "H" in
  intros s m l H; apply wrapped_sound in H as (w & r & m' & l' & Hne & Hw & -> & HD & Hg & Hr);
  [|intros; by apply (str_stop cls)];
  apply str_sound in HD as [HD Hg']; rewrite Hg' in Hg; subst r; rewrite <- Hr.
Lemma lang_sound : sound lang_re.
Proof.
  simple_sound 4 word. exists (TLang w). split; [by apply st_lang, forall_word|]. unfold element. rewrite Hg. done.
Qed.
Lemma ref_sound : sound ref_re.
Proof. simple_sound 6 path_char. exists (TRef w). split; [by apply st_ref, forall_path|]. unfold element. rewrite Hg. done. Qed.
Lemma range_sound : sound range_re.
Proof. simple_sound 6 path_char. exists (TRange w). split; [by apply st_range, forall_path|]. unfold element. rewrite Hg. done. Qed.
Lemma cond_sound : sound cond_re.
Proof. simple_sound 6 path_char. exists (TCond w). split; [by apply st_cond, forall_path|]. unfold element. rewrite Hg. done. Qed.
Lemma dump_sound : sound dump_re.
Proof. simple_sound 6 path_char. exists (TDump w). split; [by apply st_dump, forall_path|]. unfold element. rewrite Hg. done. Qed.
Lemma var_sound : sound var_re.
Proof. simple_sound 6 path_char. exists (TVar w). split; [by apply st_var, forall_path|]. unfold element. rewrite Hg. done. Qed.
Lemma close_sound : sound close_re.
Proof.
  intros s m l H. apply close_matches in H as (s' & -> & Hle & H16 & Hk). exists TClose. split; [by apply st_close|].
  unfold element. rewrite H16, !Hk by done. done.
Qed.
Lemma open_element m' w : (forall k, k <> 20%nat -> forall gs, group k (m_groups m' ++ gs) = group k gs) ->
  forall m, m_groups m = m_groups m' ++ [(19%nat, w); (18%nat, B "[")] -> element m = stored (TOpen w).
Proof. intros Hg m E. unfold element. rewrite E, !Hg by done. done. Qed.
Lemma open_sound : sound open_re.
Proof.
  intros s m l H. apply wrapped_sound in H as (w & r & m' & l' & Hne & Hw & -> & HD & Hg & Hr); [|intros; by apply open_stop].
  apply open_tail_matches in HD as (s & -> & Hle & Hk). rewrite Hr. exists (TOpen w).
  split; [by apply st_open; [|apply forall_box|]|]. by eapply open_element.
Qed.
Lemma alt_sound a b : sound a -> sound b -> sound (Alt a b).
Proof.
  intros Ha Hb s m l. cbn [matches]. destruct (matches a s) as [|m' l'] eqn:E; cbn [app]; [by apply Hb|].
  intros [= -> _]. by eapply Ha.
Qed.
Lemma meta_sound : sound meta.
Proof.
  rewrite meta_alts. repeat apply alt_sound.
  - apply comment_sound. - apply lang_sound. - apply ref_sound. - apply range_sound. - apply cond_sound.
  - apply dump_sound. - apply var_sound. - apply close_sound. - apply open_sound.
Qed.

Lemma simple_finds g1 g2 c p d w r t : p d = false -> w <> [] -> Forall (fun x => p x = true) w ->
  element (Mtch [] [(g2, w); (g1, [c])] []) = stored t -> finds (wrapped g1 g2 c p (str [d; d])) ([c; c] ++ w ++ [d; d] ++ r) t r.
Proof.
  intros Hd Hne Hw He.
  edestruct (wrapped_complete g1 g2 c p (str [d; d]) w ([d; d] ++ r)) as (m & l & E & Hg & Hr);
    [intros; by apply (str_stop p)|done|done|apply str_complete|].
  exists m, l. split; [exact E|]. split; [|exact Hr]. rewrite <- He. apply element_groups. intros k. by rewrite Hg.
Qed.
Lemma finds_left a b s t r : finds a s t r -> finds (Alt a b) s t r.
Proof. intros (m & l & E & H). exists m. eexists. split; [|done]. cbn [matches]. by rewrite E. Qed.
Lemma finds_right a b s t r : matches a s = [] -> finds b s t r -> finds (Alt a b) s t r.
Proof. intros E1 (m & l & E & H). exists m. eexists. split; [|done]. cbn [matches]. by rewrite E1. Qed.
Lemma comment_first x s : x <> "%"%char -> matches comment_re (x :: s) = [].
Proof.
  intros Hx. rewrite matches_comment. change (B "%--") with ["%"%char; "-"%char; "-"%char]. cbn [strip_prefix].
  destruct (ascii_dec "%" x) as [<-|]; done.
Qed.
Lemma close_first x s : x <> "["%char -> matches close_re (x :: s) = [].
Proof.
  intros Hx. unfold close_re. apply cat_nil. rewrite matches_str. change (B "[[") with ["["%char; "["%char]. cbn [strip_prefix].
  destruct (ascii_dec "[" x) as [<-|]; done.
Qed.
Lemma close_name w s : w <> [] -> Forall name_char w -> matches close_re (B "[[" ++ w ++ s) = [].
Proof.
  intros Hne Hw. destruct (matches close_re (B "[[" ++ w ++ s)) as [|m l] eqn:E; [done|]. exfalso.
  apply close_matches in E as (s' & E & _). destruct w as [|x w]; [done|]. apply Forall_cons in Hw as [Hx _].
  injection E as -> _. destruct Hx as [[[H1 H2]|[H1 H2]]|H]; [done|done|].
  change (B "-_.|") with ["-"%char; "_"%char; "."%char; "|"%char] in H. rewrite !elem_of_cons, elem_of_nil in H. naive_solver.
Qed.
Ltac skip := apply finds_right; [first [apply comment_first; discriminate|apply wrapped_first; discriminate|apply close_first; discriminate]|].
Lemma meta_complete s t r : starts s t r -> finds meta s t r.
Proof.
  rewrite meta_alts. intros H. destruct H as [body s r Hb Hle|w r Hne Hw|w r Hne Hw|w r Hne Hw|w r Hne Hw|w r Hne Hw|w r Hne Hw|w s r Hne Hw Hle|s r Hle].
  - apply finds_left. by apply comment_finds.
  - do 1 skip. apply finds_left. by apply simple_finds; [|done|apply forall_word|].
  - do 2 skip. apply finds_left. by apply simple_finds; [|done|apply forall_path|].
  - do 3 skip. apply finds_left. by apply simple_finds; [|done|apply forall_path|].
  - do 4 skip. apply finds_left. by apply simple_finds; [|done|apply forall_path|].
  - do 5 skip. apply finds_left. by apply simple_finds; [|done|apply forall_path|].
  - do 6 skip. apply finds_left. by apply simple_finds; [|done|apply forall_path|].
  - do 7 skip. apply finds_right; [by apply close_name|].
    destruct (open_tail_some s) as (m' & l' & E' & Hle').
    destruct (wrapped_complete 18 19 "[" box_char open_tail w (B "]]" ++ s) m' l') as (m & l & E & Hg & Hr);
      [intros; by apply open_stop|done|by apply forall_box|done|].
    exists m, l. split; [exact E|]. split.
    + eapply open_element; [|exact Hg]. apply open_tail_matches in E' as (? & _ & _ & H). exact H.
    + rewrite Hr. by eapply line_end_unique.
  - do 7 skip. apply finds_left. destruct (close_some s) as (m & l & E). exists m, l. split; [exact E|].
    destruct (close_matches _ _ _ E) as (s' & Hs & Hle' & H16 & Hk). apply app_inv_head in Hs as <-.
    split; [unfold element; rewrite H16, !Hk by done; done|]. by eapply line_end_unique.
Qed.
Lemma starts_unique s t1 r1 t2 r2 : starts s t1 r1 -> starts s t2 r2 -> t1 = t2 /\ r1 = r2.
Proof.
  intros (m & l & E & He & Hr)%meta_complete (m' & l' & E' & He' & Hr')%meta_complete. rewrite E in E'. injection E' as <- <-.
  split; [|congruence]. assert (H : stored t1 = stored t2) by congruence.
  destruct t1, t2; simpl in H; congruence.
Qed.
Lemma starts_nonempty s t r : starts s t r -> (length r < length s)%nat.
Proof.
  assert (Hl : forall s r, line_end s r -> (length r <= length s)%nat) by (intros ? ? [| |]; simpl; lia).
  intros H; destruct H; repeat rewrite app_length; simpl; try specialize (Hl _ _ ltac:(eassumption)); lia.
Qed.
Lemma no_element s : ~ element_here s <-> matches meta s = [].
Proof.
  split.
  - intros H. destruct (matches meta s) as [|m l] eqn:E; [done|]. exfalso. apply H.
    destruct (meta_sound _ _ _ E) as (t & Ht & _). by exists t, (m_rest m).
  - intros E (t & r & H). apply meta_complete in H as (m & l & E' & _). by rewrite E in E'.
Qed.

(** ** The first match *)
Lemma find_first_spec s : match find_first meta s with
  | None => forall a b, s = a ++ b -> ~ element_here b
  | Some (pre, m) => exists s' t, s = pre ++ s' /\ starts s' t (m_rest m) /\ element m = stored t /\
      forall a b, pre = a ++ b -> b <> [] -> ~ element_here (b ++ s')
  end.
Proof.
  induction s as [|c s IH].
  - change (find_first meta []) with (match matches meta [] with m :: _ => Some ([] : bytes, m) | [] => None end).
    destruct (matches meta []) as [|m l] eqn:E.
    + intros a b Hab. destruct a, b; try done. by apply no_element.
    + destruct (meta_sound _ _ _ E) as (t & Ht & He). exists [], t. split; [done|]. split; [done|]. split; [done|].
      intros a b Hab Hb. destruct a, b; done.
  - change (find_first meta (c :: s)) with
      (match matches meta (c :: s) with m :: _ => Some ([] : bytes, m) | [] => match find_first meta s with Some (pre, m) => Some (c :: pre, m) | None => None end end).
    destruct (matches meta (c :: s)) as [|m l] eqn:E.
    + apply no_element in E. destruct (find_first meta s) as [[pre m]|].
      * destruct IH as (s' & t & -> & Ht & He & Hpre). exists s', t. split; [done|]. split; [done|]. split; [done|].
        intros [|x a] b Hab Hb; simpl in Hab; [by subst b|]. injection Hab as <- ->. by apply (Hpre a b).
      * intros [|x a] b Hab; simpl in Hab; [by subst b|]. injection Hab as <- ->. by apply (IH a b).
    + destruct (meta_sound _ _ _ E) as (t & Ht & He). exists (c :: s), t. split; [done|]. split; [done|]. split; [done|].
      intros a b Hab Hb. destruct a, b; done.
Qed.
Lemma first_pass_fuel n s : (length s < n)%nat ->
  exists l, reads s l /\ (let '(ms, tail) := find_all n meta s in flat_map (fun pm => literal pm.1 ++ [element pm.2]) ms ++ literal tail) = map stored l.
Proof.
  revert s. induction n as [|n IH]; intros s Hn; [lia|]. cbn [find_all].
  pose proof (find_first_spec s) as Hs. destruct (find_first meta s) as [[pre m]|].
  - destruct Hs as (s' & t & -> & Ht & He & Hpre). pose proof (starts_nonempty _ _ _ Ht) as Hlen.
    rewrite app_length in Hn. destruct (IH (m_rest m)) as (l & Hl & E); [lia|].
    destruct (find_all n meta (m_rest m)) as [ms tail]. cbn [flat_map]. rewrite <- app_assoc, E.
    destruct pre as [|c pre].
    + exists (t :: l). split; [by eapply reads_element|]. cbn [literal app fst snd map]. by rewrite He.
    + exists (TText (c :: pre) :: t :: l). split.
      * apply reads_text; [done|done|right; by eexists _, _|]. by eapply reads_element.
      * cbn [literal app fst snd map]. by rewrite He.
  - cbn [flat_map app]. destruct s as [|c s].
    + exists []. split; [constructor|done].
    + exists [TText (c :: s)]. split; [|done].
      assert (H : reads ((c :: s) ++ []) [TText (c :: s)]); [|by rewrite app_nil_r in H].
      apply reads_text; [done| |by left|constructor].
      intros x y Hxy Hy. rewrite app_nil_r. by apply (Hs x y).
Qed.
Lemma first_pass_reads s : exists l, reads s l /\ first_pass s = map stored l.
Proof.
  destruct (first_pass_fuel (S (length s)) s) as (l & Hl & E); [lia|]. exists l. split; [done|]. unfold first_pass.
  destruct (find_all (S (length s)) meta s) as [ms tail]. done.
Qed.
(** A text reads in one way only. *)
Lemma reads_unique s l1 l2 : reads s l1 -> reads s l2 -> l1 = l2.
Proof.
  intros H1. revert l2. induction H1 as [|s t r l Ht Hl IH|a s l Ha Hno Hs Hl IH]; intros l2 H2.
  - inversion H2 as [|? ? ? ? H|a s l Ha ? ? ? E]; subst; [done|by apply starts_nonempty in H; simpl in H; lia|].
    destruct a; done.
  - inversion H2 as [E|? t' r' l' H Hl'|a s' l' Ha Hno Hs' Hl' E]; subst.
    + apply starts_nonempty in Ht. simpl in Ht. lia.
    + destruct (starts_unique _ _ _ _ _ Ht H) as [<- <-]. f_equal. by apply IH.
    + exfalso. apply (Hno [] a); [done|done|]. by eexists _, _.
  - inversion H2 as [E|? t' r' l' H Hl'|a' s' l' Ha' Hno' Hs' Hl' E]; subst.
    + destruct a; done.
    + exfalso. apply (Hno [] a); [done|done|]. by eexists _, _.
    + assert (Heq : a = a' /\ s = s'); [|by destruct Heq as [<- <-]; f_equal; apply IH].
      apply app_eq_app in E as (k & [[-> ->]|[-> ->]]).
      * destruct k as [|c k]; [by rewrite app_nil_r|]. exfalso.
        destruct Hs as [Hs|Hs]; [by destruct k|]. by apply (Hno' a (c :: k)).
      * destruct k as [|c k]; [by rewrite app_nil_r|]. exfalso.
        destruct Hs' as [Hs'|Hs']; [by destruct k|]. by apply (Hno a' (c :: k)).
Qed.
Lemma stored_inj t1 t2 : stored t1 = stored t2 -> t1 = t2.
Proof. destruct t1, t2; simpl; congruence. Qed.
Lemma first_pass_iff s l : reads s l <-> first_pass s = map stored l.
Proof.
  destruct (first_pass_reads s) as (l0 & H0 & E0). split.
  - intros H. by rewrite E0, (reads_unique _ _ _ H H0).
  - rewrite E0. intros E. assert (l0 = l); [|by subst].
    revert l E. clear. induction l0 as [|t l0 IH]; intros [|t' l] E; simpl in E; try done.
    assert (H : stored t = stored t') by congruence. apply stored_inj in H as ->. f_equal. apply IH. congruence.
Qed.
