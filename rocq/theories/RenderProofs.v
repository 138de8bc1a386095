(** * Execution agrees with the relation of RenderSpec.v. *)
From Verif Require Import GoBase GoStrings GoStringsProofs Regex DatasetModel LangModel DatasetSpec DatasetProofs DatasetProofs2 DatasetProofs3
  DatasetProofs5 TemplateModel TemplateSpec TemplateProofs2 TemplateProofs3 TemplateProofs4 TemplateProofs5 TemplateProofs6 RenderSpec.
Local Open Scope Z_scope.

(** ** Names and paths *)
Lemma join_colon c w ws : join [c] (w :: ws) = w ++ concat (map (cons c) ws).
Proof.
  revert w. induction ws as [|w2 ws IH]; intros w; simpl; [by rewrite app_nil_r|]. f_equal. cbn [app]. f_equal. apply IH.
Qed.
Lemma separated_split c s w ws : separated c s w ws <-> split_on c s = w :: ws.
Proof.
  unfold separated. rewrite <- join_colon. split.
  - intros [Hf ->]. by apply split_join.
  - intros H. split; [rewrite <- H; apply split_on_pieces|]. rewrite <- H. by rewrite join_split.
Qed.
Lemma two_ids_spec s d b : two_ids s = (d, b) <-> data_template s d b.
Proof.
  unfold two_ids, data_template. split.
  - destruct (split_on ":"%char s) as [|a [|b' ws]] eqn:E; [|intros [= <- <-]|intros [= <- <-]].
    + by apply split_on_nonempty in E.
    + left. split; [by apply separated_split|done].
    + right. exists ws. by apply separated_split.
  - intros [[H ->]|[ws H]]; apply separated_split in H; by rewrite H.
Qed.
Lemma answers_gets h d key r : answers h d key r <-> exists n, dget n h d key = Ok r.
Proof.
  split.
  - intros (s & segs & [Hf ->] & H). by apply get_segments.
  - intros H. destruct (every_key_has_segments key) as (s & segs & Hf & ->). exists s, segs. split; [done|]. by apply get_segments.
Qed.
Lemma found_search h sc key r : found h sc key r <-> exists n, search n h (map Some sc) key = Ok r.
Proof.
  split.
  - induction 1 as [key|d sc key v H|d sc key r H H1 (n & IH)].
    + by exists 0%nat.
    + apply answers_gets in H as [n H]. exists n. simpl. by rewrite H.
    + apply answers_gets in H as [n' H]. exists (n `max` n')%nat. simpl.
      rewrite (dget_mono n' _ _ _ _ _ (Nat.le_max_r n n') H) by done. simpl.
      pose proof (search_sim n (n `max` n') (Nat.le_max_l n n') h (map Some sc) key) as Hs. rewrite IH in Hs. by apply orel_ok_inv in Hs.
  - intros [n H]. revert H. induction sc as [|d sc IH]; simpl.
    + intros [= <-]. constructor.
    + destruct (dget n h d key) as [[v|]| |] eqn:E; simpl; try done.
      * intros [= <-]. apply fd_here. apply answers_gets. by exists n.
      * intros H. apply fd_outer; [apply answers_gets; by exists n|by apply IH].
Qed.
Lemma search_up n n' h xs key r : (n <= n')%nat -> search n h xs key = Ok r -> search n' h xs key = Ok r.
Proof. intros Hn H. pose proof (search_sim n n' Hn h xs key) as Hs. rewrite H in Hs. by apply orel_ok_inv in Hs. Qed.
Lemma get_template_up th n n' t name r : (n <= n')%nat -> get_template n th t name = Ok r -> get_template n' th t name = Ok r.
Proof. intros Hn H. rewrite (get_template_mono th n n'); [done|done|by rewrite H]. Qed.
Lemma choose_names th t ns r : choose th t ns r <-> exists n, try_names th n t ns = Ok r.
Proof.
  split.
  - induction 1 as [|m ns x H|m ns r H H1 (n & IH)].
    + by exists 0%nat.
    + apply get_template_visible in H as [n H]. exists n. simpl. unfold lookup_template. by rewrite H.
    + apply get_template_visible in H as [n' H]. exists (n `max` n')%nat. simpl. unfold lookup_template.
      rewrite (get_template_up th n' (n `max` n') _ _ _ (Nat.le_max_r n n') H). simpl.
      pose proof (try_names_sim th th eq n (n `max` n') eq (lookups_refl th _ _ (Nat.le_max_l n n')) t t ns eq_refl) as Hs.
      rewrite IH in Hs. destruct Hs as [|[[? _]|(x & y & [= <-] & -> & ->%same_answer_eq)]]; done.
  - intros [n H]. revert r H. induction ns as [|m ns IH]; intros r; simpl.
    + intros [= <-]. constructor.
    + destruct (lookup_template th n t m) as [[x|]| |] eqn:E; simpl; try done.
      * intros [= <-]. apply ch_here. apply get_template_visible. by exists n.
      * intros H. apply ch_next; [apply get_template_visible; by exists n|by apply IH].
Qed.
Lemma try_names_up th n n' t ns r : (n <= n')%nat -> try_names th n t ns = Ok r -> try_names th n' t ns = Ok r.
Proof.
  intros Hn H. pose proof (try_names_sim th th eq n n' eq (lookups_refl th _ _ Hn) t t ns eq_refl) as Hs.
  rewrite H in Hs. destruct Hs as [|[[? _]|(x & y & [= <-] & -> & ->%same_answer_eq)]]; done.
Qed.
Lemma field_text_string F ord h sc key s : field_text F ord h sc key s <-> exists n, stack_string F ord n h (reverse sc) key = Ok s.
Proof.
  unfold stack_string, stack_data. rewrite reverse_involutive. split.
  - intros [H|H|v s' H Hv [m Hp]]; apply found_search in H as [n H].
    + exists n. by rewrite H.
    + exists n. by rewrite H.
    + exists (n `max` m)%nat. rewrite (search_up n (n `max` m) _ _ _ _ (Nat.le_max_l n m) H). simpl.
      rewrite (sprint_mono F ord m (n `max` m) h v (Ok s') (Nat.le_max_r n m) Hp) by done. by destruct v.
  - intros [n H]. destruct (search n h (map Some sc) key) as [[v|]| |] eqn:E; simpl in H; try done.
    + assert (Hf : found h sc key (Some v)) by (apply found_search; by exists n).
      assert (Hd : v = VNil \/ v <> VNil) by (destruct v; (left; reflexivity) || (right; discriminate)). destruct Hd as [->|Hv].
      * injection H as <-. by apply ft_nil.
      * apply ft_value with v; [done|done|]. exists n. by destruct v.
    + injection H as <-. apply ft_missing. apply found_search. by exists n.
Qed.

(** ** What changes *)
Lemma counted_refl h : counted h h.
Proof. intros x. by left. Qed.
Lemma counted_kind h h' x : counted h h' ->
  match h !! x with
  | Some (ODs m) => exists m', h' !! x = Some (ODs m')
  | o => h' !! x = o
  end.
Proof.
  intros H. destruct (H x) as [E|(m & c & xs & i & d & Hx & _ & _ & _ & E)].
  - rewrite E. destruct (h !! x) as [[m| | |]|]; eauto.
  - rewrite Hx. by eexists.
Qed.
Lemma counted_collection h h' c xs : counted h h' -> collection_at h c xs <-> collection_at h' c xs.
Proof.
  intros H. pose proof (counted_kind h h' c H) as Hk. unfold collection_at.
  destruct (h !! c) as [[m| | |]|]; [destruct Hk as [m' Hk]|..]; rewrite Hk; split; (intros [E|E]; [left|right]); congruence.
Qed.
Lemma counted_dataset h h' d : counted h h' -> dataset_at h d <-> dataset_at h' d.
Proof.
  intros H. pose proof (counted_kind h h' d H) as Hk. unfold dataset_at.
  destruct (h !! d) as [[m| | |]|] eqn:E; [destruct Hk as [m' Hk]|..]; rewrite Hk;
    split; (intros [[m0 E']|[w E']]); try discriminate; eauto.
Qed.
Lemma counted_inside h h' d x m' : counted h h' -> inside h' d x m' -> exists m, inside h d x m.
Proof.
  intros H Hi. induction Hi as [l m' Hl|l d x m' Hl Hi (m & IH)].
  - pose proof (counted_kind h h' l H) as Hk. destruct (h !! l) as [[m| | |]|] eqn:E; try congruence. exists m. by apply in_ds.
  - pose proof (counted_kind h h' l H) as Hk. exists m. eapply in_ts; [|done].
    destruct (h !! l) as [[m0| | |]|] eqn:E; try congruence. destruct Hk as [m1 Hk]. congruence.
Qed.
Lemma counted_trans h1 h2 h3 : counted h1 h2 -> counted h2 h3 -> counted h1 h3.
Proof.
  intros H12 H23 x. destruct (H23 x) as [E|(m & c & xs & i & d & Hx & Hc & Hi & Hd & E)].
  - rewrite E. apply H12.
  - right. destruct (counted_inside _ _ _ _ _ H12 Hd) as [m1 Hd1]. pose proof (inside_at _ _ _ _ Hd1) as Hx1.
    exists m1, c, xs, i, d. split; [done|]. split; [by apply (counted_collection h1 h2)|]. split; [done|]. split; [done|].
    rewrite E. do 2 f_equal. destruct (H12 x) as [E12|(m' & c' & xs' & i' & d' & Hx' & _ & _ & _ & E12)].
    + rewrite E12 in Hx. rewrite Hx1 in Hx. by injection Hx as ->.
    + rewrite E12 in Hx. rewrite Hx1 in Hx'. injection Hx as <-. injection Hx' as <-. by rewrite insert_insert.
Qed.
Lemma counts_counted h d i h' c xs : counts h d i h' -> collection_at h c xs -> xs !! i = Some (Some d) -> counted h h'.
Proof.
  intros (x & m & Hi & ->) Hc Hx y. destruct (decide (y = x)) as [->|Hne].
  - right. exists m, c, xs, i, d. pose proof (inside_at _ _ _ _ Hi). by rewrite lookup_insert.
  - left. by rewrite lookup_insert_ne.
Qed.
Lemma renders_counted F ord th lg :
  (forall h sc t h' out, renders F ord th lg h sc t h' out -> counted h h') /\
  (forall h sc t l h' out, renders_all F ord th lg h sc t l h' out -> counted h h') /\
  (forall h sc t h' out, renders_opt F ord th lg h sc t h' out -> counted h h') /\
  (forall h sc t k h' out, renders_one F ord th lg h sc t k h' out -> counted h h') /\
  (forall h sc t b x i n ds h' out, loops F ord th lg h sc t b x i n ds h' out ->
     forall c xs, collection_at h c xs -> drop i xs = ds -> counted h h').
Proof.
  apply renders_mutind; intros; try apply counted_refl; try assumption.
  - eapply counted_trans; eassumption.
  - match goal with IH : forall c xs, _ -> _ -> counted _ _ |- _ => by eapply IH end.
  - match goal with
    | Hc : counts ?h ?d ?i ?h1, H1 : counted ?h1 ?h2, H2 : forall c xs, collection_at ?h2 _ _ -> _ |- _ =>
        rename Hc into Hcount; rename H1 into Hin; rename H2 into Hrest end.
    assert (Hi : xs !! i = Some (Some d)).
    { match goal with H : drop i xs = _ |- _ => rename H into Hdrop end.
      replace i with (i + 0)%nat by lia. rewrite <- lookup_drop, Hdrop. done. }
    assert (G1 : counted h h1) by (by eapply counts_counted).
    assert (G2 : counted h h2) by (by eapply counted_trans).
    eapply counted_trans; [exact G2|]. eapply Hrest; [by apply (counted_collection h h2)|].
    rewrite <- (drop_drop xs i 1) || idtac. replace (S i) with (i + 1)%nat by lia. rewrite <- drop_drop.
    match goal with H : drop i xs = _ |- _ => rewrite H end. done.
Qed.
