(** * Lookup of templates; spelling; plain text and comments. *)
From Verif Require Import GoBase GoStrings GoStringsProofs Regex DatasetModel LangModel TemplateModel TemplateSpec TemplateProofs TemplateProofs2 TemplateProofs3 TemplateProofs4.

Lemma subs_lookup T n : (t_subs T ≫= (fun m => m !! n)) = subs_of T !! n.
Proof. unfold subs_of. by destruct (t_subs T). Qed.
Lemma get_template_visible th t n r : visible th t n r <-> exists k, get_template k th t n = Ok r.
Proof.
  split.
  - induction 1 as [t T n x HT Hx|t T n f r HT Hx Hf H (k & IH)|t T n HT Hx Hf].
    + exists 1%nat. cbn. by rewrite HT, subs_lookup, Hx.
    + exists (S k). cbn. by rewrite HT, subs_lookup, Hx, Hf.
    + exists 1%nat. cbn. by rewrite HT, subs_lookup, Hx, Hf.
  - intros [k H]. revert t H. induction k as [|k IH]; intros t H; cbn in H; [done|].
    destruct (th !! t) as [T|] eqn:HT; [|done]. rewrite subs_lookup in H.
    destruct (subs_of T !! n) as [x|] eqn:Hx; [injection H as <-; by eapply vis_here|].
    destruct (t_father T) as [f|] eqn:Hf; [|injection H as <-; by eapply vis_none].
    eapply vis_up; eauto.
Qed.
Lemma visible_unique th t n r1 r2 : visible th t n r1 -> visible th t n r2 -> r1 = r2.
Proof. intros Hv. revert r2. induction Hv; intros r2' Hv2; inversion Hv2; simplify_eq; auto. Qed.
(** Whether [n] is defined is decidable through the last box with that name. *)
Lemma defines_dec is n : (exists y, defines is n y) \/ forall y, ~ defines is n y.
Proof.
  induction is as [|i is IH] using rev_ind; [right; intros y (a & ? & ? & ? & E & _); by destruct a|].
  destruct i as [k|y nm body].
  - destruct IH as [[y IH]|IH].
    + left. exists y. destruct IH as (a & nm & body & b & -> & Hp & Hb). exists a, nm, body, (b ++ [Leaf k]).
      split; [by rewrite <- app_assoc|]. split; [done|]. intros ? ? ? [H|H]%elem_of_app; [by eapply Hb|].
      apply elem_of_list_singleton in H. done.
    + right. intros y (a & nm & body & b & E & Hp & Hb). destruct b as [|i b _] using rev_ind.
      * apply app_inj_tail in E as [_ E]. discriminate.
      * change (a ++ Box y nm body :: b ++ [i]) with (a ++ (Box y nm body :: b) ++ [i]) in E. rewrite app_assoc in E.
        apply app_inj_tail in E as [-> <-]. apply (IH y). exists a, nm, body, b. split; [done|]. split; [done|].
        intros x' nm' body' H'. apply (Hb x' nm' body'). apply elem_of_app. by left.
  - destruct (decide (n <> [] /\ n ∈ split_on "|"%char nm)) as [Hp|Hp]; rewrite <- part_split in Hp.
    + left. exists y, is, nm, body, []. split; [done|]. split; [done|]. intros ? ? ? H. by apply elem_of_nil in H.
    + destruct IH as [[z IH]|IH].
      * left. exists z. destruct IH as (a & nm' & body' & b & -> & Hp' & Hb). exists a, nm', body', (b ++ [Box y nm body]).
        split; [by rewrite <- app_assoc|]. split; [done|]. intros ? ? ? [H|H]%elem_of_app; [by eapply Hb|].
        apply elem_of_list_singleton in H as [= -> -> ->]. done.
      * right. intros z (a & nm' & body' & b & E & Hp' & Hb). destruct b as [|i b _] using rev_ind.
        -- apply app_inj_tail in E as [_ [= -> -> ->]]. done.
        -- change (a ++ Box z nm' body' :: b ++ [i]) with (a ++ (Box z nm' body' :: b) ++ [i]) in E. rewrite app_assoc in E.
           apply app_inj_tail in E as [-> <-]. apply (IH z). exists a, nm', body', b. split; [done|]. split; [done|].
           intros x2 nm2 body2 H'. apply (Hb x2 nm2 body2). apply elem_of_app. by left.
Qed.
Lemma visible_outside th old t is n x T : th !! t = Some T -> t_father T = None ->
  loaded th old t is -> visible th t n (Some x) -> defines is n x \/ (old !! n = Some x /\ forall y, ~ defines is n y).
Proof.
  intros HT Hf (T' & HT' & _ & Hr & _) Hv. simplify_eq. inversion Hv; simplify_eq.
  destruct (Hr n) as [H1 H2]. rewrite subs_lookup in H1, H2.
  destruct (defines_dec is n) as [[y Hy]|Hn].
  - left. rewrite (H1 y Hy) in *. congruence.
  - right. split; [|done]. rewrite <- H2; done.
Qed.

(** ** Spelling *)
Lemma line_end_breaks s r : line_end s r -> exists e, breaks e /\ s = e ++ r.
Proof.
  destruct 1 as [r|r|s H].
  - exists [ascii_of_nat 10]. split; [right; by left|done].
  - exists [ascii_of_nat 13]. split; [right; by right|done].
  - exists []. split; [by left|done].
Qed.
Lemma starts_spelled s tk r : starts s tk r -> exists p, spelled tk p /\ s = p ++ r.
Proof.
  destruct 1 as [body s r Hb Hl|w r Hw Hf|w r Hw Hf|w r Hw Hf|w r Hw Hf|w r Hw Hf|w r Hw Hf|w s r Hw Hf Hl|s r Hl];
    try (apply line_end_breaks in Hl as (e & He & ->));
    eexists; (split; [constructor; eassumption || constructor|by rewrite <- ?app_assoc]) || idtac.
Qed.
Lemma reads_spelled s l : reads s l -> exists ps, Forall2 spelled l ps /\ s = concat ps.
Proof.
  induction 1 as [|s tk r l Hs H (ps & IH & ->)|a s l Ha Hn He H (ps & IH & ->)].
  - by exists [].
  - apply starts_spelled in Hs as (p & Hp & ->). exists (p :: ps). split; [by constructor|done].
  - exists (a :: ps). split; [constructor; [by constructor|done]|done].
Qed.

(** ** Plain text *)
Lemma starts_mark s tk r : starts s tk r -> exists m b, m ∈ [B "%--"; B "##"; B "&&"; B "@@"; B "??"; B "!!"; B "{{"; B "[["] /\ s = m ++ b.
Proof.
  destruct 1.
  9: { exists (B "[["), (B "]]" ++ s). split; [rewrite !elem_of_cons; tauto|done]. }
  all: eexists _, _; (split; [|reflexivity]); rewrite !elem_of_cons; tauto.
Qed.
Lemma plain_reads s : no_mark s -> reads s (match s with [] => [] | _ => [TText s] end).
Proof.
  intros H. destruct s as [|c s]; [constructor|].
  assert (E0 : reads ((c :: s) ++ []) [TText (c :: s)]); [|by rewrite app_nil_r in E0].
  apply reads_text; [done| |by left|constructor].
  intros x y E Hy (tk & r & Hs). rewrite app_nil_r in Hs. apply starts_mark in Hs as (m & b & Hm & Em).
  apply (H x b m Hm). by rewrite E, Em.
Qed.

(** ** Comments *)
Lemma line_end_app s r X : line_end s r -> line_end (s ++ "%"%char :: X) (r ++ "%"%char :: X).
Proof.
  destruct 1 as [r|r|s H]; [constructor|constructor|]. apply le_none. intros c r E.
  destruct s as [|c' s]; cbn in E; [by injection E as <- <-|]. injection E as <- <-. by apply (H c' s).
Qed.
Lemma starts_app s tk r X : starts s tk r -> starts (s ++ "%"%char :: X) tk (r ++ "%"%char :: X).
Proof.
  destruct 1; rewrite <- ?app_assoc; constructor; try done; by apply line_end_app.
Qed.
Lemma no_pct_field w : Forall field_char w -> "%"%char ∉ w.
Proof.
  intros Hf Hi. eapply Forall_forall in Hf; [|exact Hi].
  destruct Hf as [[[[H1 H2]|[H1 H2]]|[[H1 H2]|H]]|H]; try (vm_compute in H1, H2; congruence).
  all: repeat (apply elem_of_cons in H as [H|H]; [discriminate H|]); by apply elem_of_nil in H.
Qed.
Lemma no_pct_entry w : Forall entry_char w -> "%"%char ∉ w.
Proof. intros H. apply no_pct_field. eapply Forall_impl; [exact H|]. by left. Qed.
Lemma no_pct_name w : Forall name_char w -> "%"%char ∉ w.
Proof.
  intros Hf Hi. eapply Forall_forall in Hf; [|exact Hi].
  destruct Hf as [[[H1 H2]|[H1 H2]]|H]; try (vm_compute in H1, H2; congruence).
  repeat (apply elem_of_cons in H as [H|H]; [discriminate H|]); by apply elem_of_nil in H.
Qed.
(** An element that ends before the first percent sign. *)
Lemma prefix_before (E r s X : bytes) : "%"%char ∉ E -> E ++ r = s ++ "%"%char :: X -> exists k, s = E ++ k /\ r = k ++ "%"%char :: X.
Proof.
  intros HE H. apply app_eq_app in H as [k [[-> H]|[-> H]]].
  - destruct k as [|c k]; [|].
    + exists []. cbn in H. rewrite !app_nil_r. done.
    + injection H as <- _. exfalso. apply HE. apply elem_of_app. right. by left.
  - by exists k.
Qed.
Lemma line_end_any s : exists r, line_end s r.
Proof.
  destruct s as [|c s]; [exists []; by apply le_none|].
  destruct (decide (c = ascii_of_nat 10)) as [->|H1]; [exists s; constructor|].
  destruct (decide (c = ascii_of_nat 13)) as [->|H2]; [exists s; constructor|].
  exists (c :: s). apply le_none. by intros c' r [= <- <-].
Qed.
Lemma starts_first s tk r : starts s tk r -> exists c s', s = c :: s' /\ c ∈ B "%#&@?!{[".
Proof.
  intros H. destruct H; eexists _, _; (split; [reflexivity|]);
    change (B "%#&@?!{[") with ["%"; "#"; "&"; "@"; "?"; "!"; "{"; "["]%char; rewrite !elem_of_cons; tauto.
Qed.
Lemma starts_before y s X : y <> [] -> (forall a b, y <> a ++ B "%--" ++ b) -> (s = [] \/ element_here s) ->
  ~ element_here (y ++ s) -> ~ element_here (y ++ s ++ "%"%char :: X).
Proof.
  intros Hy Hc Hs Hn (tk & r & H). apply Hn. rewrite app_assoc in H. remember (y ++ s) as z eqn:Ez.
  remember (z ++ "%"%char :: X) as zx eqn:Ezx.
  destruct H as [body s1 r Hb Hl|w r Hw Hf|w r Hw Hf|w r Hw Hf|w r Hw Hf|w r Hw Hf|w r Hw Hf|w s1 r Hw Hf Hl|s1 r Hl].
  - exfalso. subst z. rewrite <- app_assoc in Ezx.
    destruct y as [|c0 [|c1 [|c2 y]]].
    + done.
    + destruct Hs as [->|(tk' & r' & Hs)]; [discriminate Ezx|].
      apply starts_first in Hs as (c & s' & -> & Hin). injection Ezx as _ <- _.
      change (B "%#&@?!{[") with ["%"; "#"; "&"; "@"; "?"; "!"; "{"; "["]%char in Hin.
      repeat (apply elem_of_cons in Hin as [Hin|Hin]; [discriminate Hin|]); by apply elem_of_nil in Hin.
    + destruct Hs as [->|(tk' & r' & Hs)]; [discriminate Ezx|].
      apply starts_first in Hs as (c & s' & -> & Hin). injection Ezx as _ _ <- _.
      change (B "%#&@?!{[") with ["%"; "#"; "&"; "@"; "?"; "!"; "{"; "["]%char in Hin.
      repeat (apply elem_of_cons in Hin as [Hin|Hin]; [discriminate Hin|]); by apply elem_of_nil in Hin.
    + injection Ezx as <- <- <- _. by apply (Hc [] y).
  - rewrite !app_assoc in Ezx. apply prefix_before in Ezx as (k & -> & ->);
      [eexists _, _; rewrite <- !app_assoc; by constructor|].
    apply no_pct_entry in Hf. change (B "##") with ["#"; "#"]%char. rewrite !elem_of_app, !elem_of_cons, elem_of_nil. intuition discriminate.
  - rewrite !app_assoc in Ezx. apply prefix_before in Ezx as (k & -> & ->);
      [eexists _, _; rewrite <- !app_assoc; by constructor|].
    apply no_pct_field in Hf. change (B "&&") with ["&"; "&"]%char. rewrite !elem_of_app, !elem_of_cons, elem_of_nil. intuition discriminate.
  - rewrite !app_assoc in Ezx. apply prefix_before in Ezx as (k & -> & ->);
      [eexists _, _; rewrite <- !app_assoc; by constructor|].
    apply no_pct_field in Hf. change (B "@@") with ["@"; "@"]%char. rewrite !elem_of_app, !elem_of_cons, elem_of_nil. intuition discriminate.
  - rewrite !app_assoc in Ezx. apply prefix_before in Ezx as (k & -> & ->);
      [eexists _, _; rewrite <- !app_assoc; by constructor|].
    apply no_pct_field in Hf. change (B "??") with ["?"; "?"]%char. rewrite !elem_of_app, !elem_of_cons, elem_of_nil. intuition discriminate.
  - rewrite !app_assoc in Ezx. apply prefix_before in Ezx as (k & -> & ->);
      [eexists _, _; rewrite <- !app_assoc; by constructor|].
    apply no_pct_field in Hf. change (B "!!") with ["!"; "!"]%char. rewrite !elem_of_app, !elem_of_cons, elem_of_nil. intuition discriminate.
  - rewrite !app_assoc in Ezx. apply prefix_before in Ezx as (k & -> & ->);
      [eexists _, _; rewrite <- !app_assoc; by constructor|].
    apply no_pct_field in Hf. change (B "{{") with ["{"; "{"]%char. change (B "}}") with ["}"; "}"]%char.
    rewrite !elem_of_app, !elem_of_cons, elem_of_nil. intuition discriminate.
  - rewrite !app_assoc in Ezx. apply prefix_before in Ezx as (k & -> & ->);
      [destruct (line_end_any k) as [r' Hr']; eexists _, _; rewrite <- !app_assoc; by constructor|].
    apply no_pct_name in Hf. change (B "[[") with ["["; "["]%char. change (B "]]") with ["]"; "]"]%char.
    rewrite !elem_of_app, !elem_of_cons, elem_of_nil. intuition discriminate.
  - apply prefix_before in Ezx as (k & -> & ->);
      [destruct (line_end_any k) as [r' Hr']; eexists _, _; by constructor|].
    change (B "[[]]") with ["["; "["; "]"; "]"]%char. rewrite !elem_of_cons, elem_of_nil. intuition discriminate.
Qed.
Lemma reads_comment a la body s r lr : reads a la -> no_open_comment la ->
  (forall x y, body <> x ++ B "--%" ++ y) -> line_end s r -> reads r lr ->
  reads (a ++ B "%--" ++ body ++ B "--%" ++ s) (la ++ TComment body :: lr).
Proof.
  intros Ha Hn Hb Hl Hr. set (X := B "--" ++ body ++ B "--%" ++ s).
  change (B "%--" ++ body ++ B "--%" ++ s) with ("%"%char :: X).
  assert (HX : reads ("%"%char :: X) (TComment body :: lr)).
  { change ("%"%char :: X) with (B "%--" ++ body ++ B "--%" ++ s). eapply reads_element; [by apply st_comment|done]. }
  assert (EX : element_here ("%"%char :: X)).
  { exists (TComment body), r. change ("%"%char :: X) with (B "%--" ++ body ++ B "--%" ++ s). by apply st_comment. }
  clearbody X. induction Ha as [|a0 tk r0 l Hs H IH|a0 s0 l Hne Hno He H IH]; [done| |].
  - cbn. eapply reads_element; [by apply starts_app|]. apply IH. intros s' Hs'. apply Hn. by right.
  - rewrite <- app_assoc. cbn [app]. apply reads_text; [done| | |].
    + intros x y -> Hy. apply starts_before; [done| |done|by apply (Hno x y)].
      intros a b ->. eapply (Hn _ (elem_of_list_here _ _) (x ++ a) b). by rewrite <- app_assoc.
    + right. destruct He as [->|(tk & r' & He)]; [done|]. exists tk, (r' ++ "%"%char :: X). by apply starts_app.
    + apply IH. intros s' Hs'. apply Hn. by right.
Qed.
Lemma first_pass_comment a la body s r : reads a la -> no_open_comment la ->
  (forall x y, body <> x ++ B "--%" ++ y) -> line_end s r ->
  first_pass (a ++ B "%--" ++ body ++ B "--%" ++ s) = first_pass a ++ Param 1 body :: first_pass r.
Proof.
  intros Ha Hn Hb Hl. destruct (first_pass_reads r) as (lr & Hr & Er).
  pose proof (reads_comment a la body s r lr Ha Hn Hb Hl Hr) as H.
  apply first_pass_iff in H. apply first_pass_iff in Ha. rewrite H, Ha, Er. by rewrite map_app.
Qed.
