(** * Version 1: the words of a text. *)
From Verif Require Import GoBase GoStrings GoStringsProofs Regex RegexSyntax RegexProofs DatasetModel TemplateModel TemplateSpec
  TemplateProofs TemplateProofs2 V1Template V1TemplateSpec.

Lemma pattern1_denotes : exists r, regexp_of pattern1 = Some r /\ (forall s, matches r s = matches meta1 s) /\
  forall n s, find_all n r s = find_all n meta1 s.
Proof.
  assert (H : match regexp_of pattern1 with Some r => same (norm r Eps) (norm meta1 Eps) | None => false end = true) by (vm_compute; reflexivity).
  destruct (regexp_of pattern1) as [r|]; [|discriminate H].
  exists r. split; [done|]. pose proof (same_norm _ _ H) as H'.
  split; [done|]. by apply find_all_cong.
Qed.

(** ** Any text between two marks *)
Definition between1 (g1 g2 : nat) (c d : ascii) : re := wrapped g1 g2 c any_char (str [d; d]).
Definition cont (g1 g2 : nat) (c z d : ascii) (w r : bytes) : list mtch :=
  match strip_prefix [d; d] r with Some q => [Mtch (c :: c :: z :: w ++ [d; d]) [(g2, z :: w); (g1, [c])] q] | None => [] end.
Lemma matches_between g1 g2 c d s : matches (between1 g1 g2 c d) s =
  match s with
  | x :: y :: z :: s' => if is c x && is c y then flat_map (fun m => cont g1 g2 c z d (m_text m) (m_rest m)) (lazy_matches (fun _ => true) s') else []
  | _ => []
  end.
Proof.
  unfold between1, wrapped. rewrite matches_cat. cbn [matches].
  destruct s as [|x s]; [done|]. unfold chr. cbn [matches].
  destruct (is c x) eqn:Hx; [|by destruct s as [|? [|? ?]]].
  apply is_true in Hx as ->. cbn [map flat_map m_text m_groups m_rest app].
  destruct s as [|y s]; [done|]. destruct (is c y) eqn:Hy; [|by destruct s].
  apply is_true in Hy as ->. rewrite app_nil_r. cbn [flat_map m_text m_groups m_rest map app]. rewrite app_nil_r.
  destruct s as [|z s]; [done|]. cbn [any_char andb flat_map map m_rest m_text m_groups app].
  rewrite !app_nil_r, !flat_map_map, !map_flat_map. cbn [m_text m_groups m_rest].
  change (lazy_matches any_char s) with (lazy_matches (fun _ => true) s).
  apply (flat_map_Forall (fun m => m_groups m = []) _ _ _ (lazy_groups (fun _ => true) s)).
  intros m Hm. unfold cont. rewrite matches_str. destruct (strip_prefix [d; d] (m_rest m)) as [q|]; [|done].
  cbn [map m_text m_groups m_rest app]. by rewrite Hm.
Qed.
Lemma between_sound g1 g2 c d s m l : matches (between1 g1 g2 c d) s = m :: l ->
  exists w, shortest [d; d] w /\ s = [c; c] ++ w ++ [d; d] ++ m_rest m /\ m_groups m = [(g2, w); (g1, [c])].
Proof.
  rewrite matches_between. destruct s as [|x [|y [|z s]]]; try done.
  destruct (is c x) eqn:Hx; [|done]. destruct (is c y) eqn:Hy; [|done].
  apply is_true in Hx as ->. apply is_true in Hy as ->. cbn [andb].
  intros (w & r & l' & -> & HK & Hmin)%(flat_first (cont g1 g2 c z d)). unfold cont in HK.
  destruct (strip_prefix [d; d] r) as [q|] eqn:Eq; [|done]. apply strip_prefix_some in Eq as ->. injection HK as <- _.
  cbn [m_rest m_groups]. exists (z :: w). split; [|split; [done|done]]. split; [done|].
  intros [|z' a] b Ha Hb E; [done|]. cbn [app] in E. injection E as <- E.
  assert (Hw : exists k, w = a ++ k /\ k <> [] /\ k ++ [d; d] = [d; d] ++ b).
  { apply app_eq_app in E as (k & [[-> E]|[-> E]]).
    - destruct k as [|x k]; [|exists (x :: k); done].
      exists []. exfalso. cbn in E. injection E as E. by subst b.
    - exfalso. destruct b as [|x b]; [done|]. apply (f_equal length) in E. rewrite !app_length in E. cbn in E. lia. }
  destruct Hw as (k & -> & Hk & Ek). specialize (Hmin a k eq_refl Hk). unfold cont in Hmin.
  replace (k ++ [d; d] ++ q) with ([d; d] ++ (b ++ q)) in Hmin by (rewrite !app_assoc, Ek; done).
  rewrite (proj2 (strip_prefix_some _ _ (b ++ q)) eq_refl) in Hmin. done.
Qed.
Lemma between_finds g1 g2 c d w r t : shortest [d; d] w -> element (Mtch [] [(g2, w); (g1, [c])] []) = stored t ->
  finds (between1 g1 g2 c d) ([c; c] ++ w ++ [d; d] ++ r) t r.
Proof.
  intros [Hne Hw] He. unfold finds. rewrite matches_between. destruct w as [|z w]; [done|]. cbn [app]. rewrite !is_refl. cbn [andb].
  edestruct (flat_at (cont g1 g2 c z d) w ([d; d] ++ r)) as (l' & E).
  { intros a b -> Hb. unfold cont. destruct (strip_prefix [d; d] (b ++ [d; d] ++ r)) as [q|] eqn:Eq; [|done]. exfalso.
    apply strip_prefix_some in Eq. destruct b as [|x1 [|x2 b]]; [done| |].
    - cbn in Eq. injection Eq as -> _. apply (Hw (z :: a) [d]); [done|done|]. cbn. by rewrite <- app_assoc.
    - cbn in Eq. injection Eq as -> -> _. apply (Hw (z :: a) (b ++ [d; d])); [done|by destruct b|]. cbn. by rewrite <- app_assoc. }
  unfold cont at 2 in E. rewrite (proj2 (strip_prefix_some _ _ r) eq_refl) in E.
  eexists _, _. split; [exact E|]. split; [|done]. rewrite <- He. by apply element_groups.
Qed.

Definition lang_re1 := between1 4 5 "#" "#".
Definition ref_re1 := between1 6 7 "&" "&".
Definition range_re1 := between1 8 9 "@" "@".
Definition cond_re1 := between1 10 11 "?" "?".
Definition dump_re1 := between1 12 13 "!" "!".
Definition var_re1 := between1 14 15 "{" "}".
Lemma meta1_alts : meta1 = Alt comment_re (Alt lang_re1 (Alt ref_re1 (Alt range_re1 (Alt cond_re1 (Alt dump_re1 (Alt var_re1 (Alt close_re open_re))))))).
Proof. reflexivity. Qed.
Definition sound1 (r : re) : Prop := forall s m l, matches r s = m :: l -> exists t, starts1 s t (m_rest m) /\ element m = stored t.
Lemma alt_sound1 a b : sound1 a -> sound1 b -> sound1 (Alt a b).
Proof.
  intros Ha Hb s m l. cbn [matches]. destruct (matches a s) as [|m' l'] eqn:E; cbn [app]; [by apply Hb|].
  intros [= -> _]. by eapply Ha.
Qed.
Lemma old_sound1 r : sound r -> (forall s m l t, matches r s = m :: l -> starts s t (m_rest m) -> starts1 s t (m_rest m)) -> sound1 r.
Proof. intros Hs H s m l E. destruct (Hs s m l E) as (t & Ht & He). exists t. split; [by eapply H|done]. Qed.
Lemma comment_sound1 : sound1 comment_re.
Proof.
  apply old_sound1; [apply comment_sound|]. intros s m l t E Ht. destruct s as [|x s]; [done|].
  destruct (decide (x = "%"%char)) as [->|Hx]; [|by rewrite comment_first in E]. inversion Ht; subst. by apply s1_comment.
Qed.
Lemma close_sound1 : sound1 close_re.
Proof.
  intros s m l H. apply close_matches in H as (s' & -> & Hle & H16 & Hk). exists TClose. split; [by apply s1_close|].
  unfold element. rewrite H16, !Hk by done. done.
Qed.
Lemma open_sound1 : sound1 open_re.
Proof.
  intros s m l H. apply wrapped_sound in H as (w & r & m' & l' & Hne & Hw & -> & HD & Hg & Hr); [|intros; by apply open_stop].
  apply open_tail_matches in HD as (s & -> & Hle & Hk). rewrite Hr. exists (TOpen w).
  split; [by apply s1_open; [|apply forall_box|]|]. by eapply open_element.
Qed.
Ltac between_case := apply alt_sound1; [intros s m l (w & Hw & -> & Hg)%between_sound|].
Lemma meta1_sound : sound1 meta1.
Proof.
  rewrite meta1_alts. apply alt_sound1; [apply comment_sound1|].
  between_case; [exists (TLang w); split; [by apply s1_lang|]; unfold element; by rewrite Hg|].
  between_case; [exists (TRef w); split; [by apply s1_ref|]; unfold element; by rewrite Hg|].
  between_case; [exists (TRange w); split; [by apply s1_range|]; unfold element; by rewrite Hg|].
  between_case; [exists (TCond w); split; [by apply s1_cond|]; unfold element; by rewrite Hg|].
  between_case; [exists (TDump w); split; [by apply s1_dump|]; unfold element; by rewrite Hg|].
  between_case; [exists (TVar w); split; [by apply s1_var|]; unfold element; by rewrite Hg|].
  apply alt_sound1; [apply close_sound1|apply open_sound1].
Qed.
Lemma meta1_complete s t r : starts1 s t r -> finds meta1 s t r.
Proof.
  rewrite meta1_alts. intros H.
  destruct H as [body s r Hb Hle|w r Hw|w r Hw|w r Hw|w r Hw|w r Hw|w r Hw|w s r Hne Hw Hle|s r Hle].
  - apply finds_left. by apply comment_finds.
  - do 1 skip. apply finds_left. by apply between_finds.
  - do 2 skip. apply finds_left. by apply between_finds.
  - do 3 skip. apply finds_left. by apply between_finds.
  - do 4 skip. apply finds_left. by apply between_finds.
  - do 5 skip. apply finds_left. by apply between_finds.
  - do 6 skip. apply finds_left. by apply between_finds.
  - do 7 skip. apply finds_right; [by apply close_name|].
    destruct (open_tail_some s) as (m' & l' & E' & Hle').
    destruct (wrapped_complete 18 19 "[" box_char open_tail w (B "]]" ++ s) m' l') as (m & l & E & Hg & Hr);
      [intros; by apply open_stop|done|by apply forall_box|done|].
    exists m, l. split; [exact E|]. split.
    + eapply open_element; [|exact Hg]. apply open_tail_matches in E' as (? & _ & _ & H). exact H.
    + rewrite Hr. by eapply line_end_unique.
  - do 7 skip. apply finds_left. destruct (close_some s) as (m & l & E). exists m, l. split; [exact E|].
    destruct (close_matches _ _ _ E) as (s' & Hs & Hle' & H16 & Hk). apply app_inv_head in Hs as <-.
    split; [unfold element; rewrite H16, !Hk by done; done|]. by eapply line_end_unique.
Qed.
Lemma starts1_unique s t1 r1 t2 r2 : starts1 s t1 r1 -> starts1 s t2 r2 -> t1 = t2 /\ r1 = r2.
Proof.
  intros (m & l & E & He & Hr)%meta1_complete (m' & l' & E' & He' & Hr')%meta1_complete. rewrite E in E'. injection E' as <- <-.
  split; [|congruence]. apply stored_inj. congruence.
Qed.
Lemma starts1_nonempty s t r : starts1 s t r -> (length r < length s)%nat.
Proof.
  assert (Hl : forall s r, line_end s r -> (length r <= length s)%nat) by (intros ? ? [| |]; simpl; lia).
  intros H; destruct H; repeat rewrite app_length; simpl; try specialize (Hl _ _ ltac:(eassumption)); lia.
Qed.
Lemma no_element1 s : ~ element_here1 s <-> matches meta1 s = [].
Proof.
  split.
  - intros H. destruct (matches meta1 s) as [|m l] eqn:E; [done|]. exfalso. apply H.
    destruct (meta1_sound _ _ _ E) as (t & Ht & _). by exists t, (m_rest m).
  - intros E (t & r & H). apply meta1_complete in H as (m & l & E' & _). by rewrite E in E'.
Qed.
Lemma find_first_spec1 s : match find_first meta1 s with
  | None => forall a b, s = a ++ b -> ~ element_here1 b
  | Some (pre, m) => exists s' t, s = pre ++ s' /\ starts1 s' t (m_rest m) /\ element m = stored t /\
      forall a b, pre = a ++ b -> b <> [] -> ~ element_here1 (b ++ s')
  end.
Proof.
  induction s as [|c s IH].
  - change (find_first meta1 []) with (match matches meta1 [] with m :: _ => Some ([] : bytes, m) | [] => None end).
    destruct (matches meta1 []) as [|m l] eqn:E.
    + intros a b Hab. destruct a, b; try done. by apply no_element1.
    + destruct (meta1_sound _ _ _ E) as (t & Ht & He). exists [], t. split; [done|]. split; [done|]. split; [done|].
      intros a b Hab Hb. destruct a, b; done.
  - change (find_first meta1 (c :: s)) with
      (match matches meta1 (c :: s) with m :: _ => Some ([] : bytes, m) | [] => match find_first meta1 s with Some (pre, m) => Some (c :: pre, m) | None => None end end).
    destruct (matches meta1 (c :: s)) as [|m l] eqn:E.
    + apply no_element1 in E. destruct (find_first meta1 s) as [[pre m]|].
      * destruct IH as (s' & t & -> & Ht & He & Hpre). exists s', t. split; [done|]. split; [done|]. split; [done|].
        intros [|x a] b Hab Hb; simpl in Hab; [by subst b|]. injection Hab as <- ->. by apply (Hpre a b).
      * intros [|x a] b Hab; simpl in Hab; [by subst b|]. injection Hab as <- ->. by apply (IH a b).
    + destruct (meta1_sound _ _ _ E) as (t & Ht & He). exists (c :: s), t. split; [done|]. split; [done|]. split; [done|].
      intros a b Hab Hb. destruct a, b; done.
Qed.
Lemma first_pass_fuel1 n s : (length s < n)%nat ->
  exists l, reads1 s l /\ (let '(ms, tail) := find_all n meta1 s in flat_map (fun pm => literal pm.1 ++ [element pm.2]) ms ++ literal tail) = map stored l.
Proof.
  revert s. induction n as [|n IH]; intros s Hn; [lia|]. cbn [find_all].
  pose proof (find_first_spec1 s) as Hs. destruct (find_first meta1 s) as [[pre m]|].
  - destruct Hs as (s' & t & -> & Ht & He & Hpre). pose proof (starts1_nonempty _ _ _ Ht) as Hlen.
    rewrite app_length in Hn. destruct (IH (m_rest m)) as (l & Hl & E); [lia|].
    destruct (find_all n meta1 (m_rest m)) as [ms tail]. cbn [flat_map]. rewrite <- app_assoc, E.
    destruct pre as [|c pre].
    + exists (t :: l). split; [by eapply reads1_element|]. cbn [literal app fst snd map]. by rewrite He.
    + exists (TText (c :: pre) :: t :: l). split.
      * apply reads1_text; [done|done|right; by eexists _, _|]. by eapply reads1_element.
      * cbn [literal app fst snd map]. by rewrite He.
  - cbn [flat_map app]. destruct s as [|c s].
    + exists []. split; [constructor|done].
    + exists [TText (c :: s)]. split; [|done].
      assert (H : reads1 ((c :: s) ++ []) [TText (c :: s)]); [|by rewrite app_nil_r in H].
      apply reads1_text; [done| |by left|constructor].
      intros x y Hxy Hy. rewrite app_nil_r. by apply (Hs x y).
Qed.
Lemma first_pass_reads1 s : exists l, reads1 s l /\ first_pass1 s = map stored l.
Proof.
  destruct (first_pass_fuel1 (S (length s)) s) as (l & Hl & E); [lia|]. exists l. split; [done|]. unfold first_pass1.
  destruct (find_all (S (length s)) meta1 s) as [ms tail]. done.
Qed.
Lemma reads1_unique s l1 l2 : reads1 s l1 -> reads1 s l2 -> l1 = l2.
Proof.
  intros H1. revert l2. induction H1 as [|s t r l Ht Hl IH|a s l Ha Hno Hs Hl IH]; intros l2 H2.
  - inversion H2 as [|? ? ? ? H|a s l Ha ? ? ? E]; subst; [done|by apply starts1_nonempty in H; simpl in H; lia|].
    destruct a; done.
  - inversion H2 as [E|? t' r' l' H Hl'|a s' l' Ha Hno Hs' Hl' E]; subst.
    + apply starts1_nonempty in Ht. simpl in Ht. lia.
    + destruct (starts1_unique _ _ _ _ _ Ht H) as [<- <-]. f_equal. by apply IH.
    + exfalso. apply (Hno [] a); [done|done|]. by eexists _, _.
  - inversion H2 as [E|? t' r' l' H Hl'|a' s' l' Ha' Hno' Hs' Hl' E]; subst.
    + destruct a; done.
    + exfalso. apply (Hno [] a); [done|done|]. by eexists _, _.
    + assert (Heq : a = a' /\ s = s'); [|by destruct Heq as [<- <-]; f_equal; apply IH].
      apply app_eq_app in E as (k & [[-> ->]|[-> ->]]).
      * destruct k as [|c k]; [by rewrite app_nil_r|]. exfalso.
        destruct Hs as [Hs|Hs]; [by destruct k|]. by apply (Hno' a (c :: k)).
      * destruct k as [|c k]; [by rewrite app_nil_r|]. exfalso.
        destruct Hs' as [Hs'|Hs']; [by destruct k|]. by apply (Hno a' (c :: k)).
Qed.
Lemma stored_list_inj l1 l2 : map stored l1 = map stored l2 -> l1 = l2.
Proof.
  revert l2. induction l1 as [|t l1 IH]; intros [|t' l2] E; simpl in E; try done.
  assert (H : stored t = stored t') by congruence. apply stored_inj in H as ->. f_equal. apply IH. congruence.
Qed.
Lemma first_pass1_iff s l : reads1 s l <-> first_pass1 s = map stored l.
Proof.
  destruct (first_pass_reads1 s) as (l0 & H0 & E0). split.
  - intros H. by rewrite E0, (reads1_unique _ _ _ H H0).
  - rewrite E0. intros <-%stored_list_inj. done.
Qed.

(** ** Nothing is lost *)
Lemma line_end_breaks s r : line_end s r -> exists e, s = e ++ r /\ breaks e.
Proof.
  intros [r'|r'|s' _].
  - exists [ascii_of_nat 10]. split; [done|]. right. by left.
  - exists [ascii_of_nat 13]. split; [done|]. right. by right.
  - exists []. split; [done|]. by left.
Qed.
Lemma starts1_spelled s t r : starts1 s t r -> exists w, spelled t w /\ s = w ++ r.
Proof.
  intros H; destruct H; try (destruct (line_end_breaks _ _ ltac:(eassumption)) as (e & -> & He));
    eexists; (split; [by constructor|]); rewrite <- ?app_assoc; done.
Qed.
Lemma reads1_spelled s l : reads1 s l -> exists ws, Forall2 spelled l ws /\ s = concat ws.
Proof.
  induction 1 as [|s t r l Ht Hl (ws & Hw & ->)|a s l Ha Hno Hs Hl (ws & Hw & ->)].
  - exists []. split; [constructor|done].
  - destruct (starts1_spelled _ _ _ Ht) as (w & Hw' & ->). exists (w :: ws). split; [by constructor|done].
  - exists (a :: ws). split; [constructor; [by constructor|done]|done].
Qed.

(** ** Comparison with version 2 *)
Lemma short_name (p : ascii -> Prop) d w : w <> [] -> Forall p w -> ~ p d -> shortest [d; d] w.
Proof.
  intros Hne Hw Hd. split; [done|]. intros a b Ha Hb E. apply app_eq_app in E as (k & [[-> E]|[-> E]]).
  - destruct k as [|x k]; [cbn in E; congruence|]. injection E as -> _.
    apply Forall_app in Hw as [_ Hw]. by apply Forall_cons in Hw as [Hw _].
  - destruct b as [|x b]; [done|]. apply (f_equal length) in E. rewrite !app_length in E. cbn in E. lia.
Qed.
Lemma starts_starts1 s t r : starts s t r -> starts1 s t r.
Proof.
  assert (Hp : forall c, path_char c = false -> ~ field_char c) by (intros c Hc Hf; apply path_char_true in Hf; congruence).
  assert (Hq : forall c, word c = false -> ~ entry_char c) by (intros c Hc Hf; apply word_true in Hf; congruence).
  intros H; destruct H.
  - by apply s1_comment.
  - apply s1_lang. by eapply short_name; [|eassumption|apply Hq].
  - apply s1_ref. by eapply short_name; [|eassumption|apply Hp].
  - apply s1_range. by eapply short_name; [|eassumption|apply Hp].
  - apply s1_cond. by eapply short_name; [|eassumption|apply Hp].
  - apply s1_dump. by eapply short_name; [|eassumption|apply Hp].
  - apply s1_var. by eapply short_name; [|eassumption|apply Hp].
  - by apply s1_open.
  - by apply s1_close.
Qed.
Lemma starts1_starts s t r : starts1 s t r -> known_name t -> starts s t r.
Proof.
  intros H Hk; destruct H; simpl in Hk; try (match goal with H : shortest _ _ |- _ => destruct H as [? _] end); by constructor.
Qed.
Lemma reads1_reads s l : reads1 s l -> Forall known_name l -> reads s l.
Proof.
  induction 1 as [|s t r l Ht Hl IH|a s l Ha Hno Hs Hl IH]; intros Hk; [constructor| |]; apply Forall_cons in Hk as [Hk Hk'].
  - apply reads_element with r; [by apply starts1_starts|by apply IH].
  - apply reads_text; [done| | |by apply IH].
    + intros x y E Hy (t & r & H). apply (Hno x y E Hy). exists t, r. by apply starts_starts1.
    + destruct Hs as [->|Hs]; [by left|right].
      inversion Hl as [|? t r l' H H'|a' s' l' Ha' Hno' Hs' Hl' E1 E2]; subst.
      * destruct Hs as (t & r & H). by apply starts1_nonempty in H; simpl in H; lia.
      * apply Forall_cons in Hk' as [Hk' _]. exists t, r. by apply starts1_starts.
      * exfalso. by apply (Hno' [] a').
Qed.
Lemma same_reading s l : reads1 s l -> Forall known_name l -> first_pass1 s = first_pass s.
Proof.
  intros H Hk. rewrite (proj1 (first_pass1_iff s l) H). symmetry. apply first_pass_iff. by apply reads1_reads.
Qed.
