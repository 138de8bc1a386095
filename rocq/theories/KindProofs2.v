(** * Printing plain and thread safe data (C129). *)
From Verif Require Import GoBase GoStrings GoStringsProofs DatasetModel LangModel DatasetSpec DatasetProofs DatasetProofs2 DatasetProofs3 DatasetProofs4
  TemplateModel TemplateSpec RenderSpec HoleSpec HoleProofs SameSpec SameProofs KindSpec KindProofs.
Local Open Scope nat_scope.

(** Both return, with the same text if the kinds of collections correspond, or both panic. *)
Definition agree {A} (b : bool) (o o' : outcome A) : Prop := ((exists s s', o = Ok s /\ o' = Ok s') \/ (o = Panic /\ o' = Panic)) /\ (b = true -> o' = o).
Section Print.
  Context (R : loc -> loc -> Prop) (b : bool) (h h' : heap) (Ha : alike R b h h').
  Context (F : golib) (ord ord' : heap -> gmap bytes value -> list (bytes * value)) (Ho : order_ok ord) (Ho' : order_ok ord').
  Notation sv := (same_value R).
  Definition prompt (n : nat) (go : bool) : Prop := forall l l', R l l' -> show F ord n h go l <> NoFuel ->
    exists N, forall n', N <= n' -> agree b (show F ord n h go l) (show F ord' n' h' go l').
  Lemma kd_value n go v v' : prompt n go -> sv v v' -> show_value F (show F ord n h) go v <> NoFuel ->
    exists N, forall n', N <= n' -> agree b (show_value F (show F ord n h) go v) (show_value F (show F ord' n' h') go v').
  Proof.
    intros Hp [[-> Hne]|(d & d' & -> & -> & Hd)] Hn.
    - exists 0. intros n' _. destruct v; try (split; [left; by eauto|done]). by destruct (Hne l).
    - destruct (Hp d d' Hd) as [N HN].
      { intros E. apply Hn. simpl. by rewrite E. }
      exists N. intros n' Hle. specialize (HN n' Hle) as [[(s & s' & E1 & E2)|[E1 E2]] Hb]; simpl; rewrite E1, E2; (split; [left; eauto|]); [|done].
      intros Hbt. specialize (Hb Hbt). by rewrite E1, E2 in Hb.
  Qed.
  Lemma kd_entries n go l l' : prompt n go -> Forall2 (fun e e' => e.1 = e'.1 /\ sv e.2 e'.2) l l' ->
    show_entries (show_value F (show F ord n h) go) l <> NoFuel ->
    exists N, forall n', N <= n' -> exists ts ts', show_entries (show_value F (show F ord n h) go) l = Ok ts /\
      show_entries (show_value F (show F ord' n' h') go) l' = Ok ts' /\ (b = true -> ts' = ts).
  Proof.
    intros Hp HF. induction HF as [|[k v] [k' v'] l l' [Hk Hv] _ IH]; intros Hn.
    - exists 0. intros n' _. by exists [], [].
    - simpl in Hk, Hv. subst k'. cbn [show_entries] in *.
      destruct (kd_value n go v v' Hp Hv) as [N1 H1]. { intros E. apply Hn. by rewrite E. }
      assert (exists t, show_value F (show F ord n h) go v = Ok t) as [t Et].
      { destruct (H1 N1 ltac:(done)) as [[(s & s' & E1 & _)|[E1 _]] _]; [eauto|]. by destruct (show_value_no_panic F (show F ord n h) go v). }
      rewrite Et in Hn. cbn [obind] in Hn. destruct IH as [N2 H2]. { intros E. apply Hn. by rewrite E. }
      exists (N1 + N2). intros n' Hle. destruct (H1 n' ltac:(lia)) as [[(s & s' & E1 & E2)|[E1 _]] Hb]; [|congruence].
      destruct (H2 n' ltac:(lia)) as (ts & ts' & E3 & E4 & Hts). rewrite Et in E1. injection E1 as <-.
      rewrite Et, E3, E2, E4. cbn [obind]. eexists _, _. split; [done|]. split; [done|]. intros Hbt. rewrite (Hts Hbt). specialize (Hb Hbt). rewrite Et, E2 in Hb. by injection Hb as ->.
  Qed.
  Lemma kd_elements n xs xs' : prompt n false -> Forall2 (option_Forall2 R) xs xs' -> forall i,
    show_elements (show_value F (show F ord n h) false) i xs <> NoFuel ->
    exists N, forall n', N <= n' -> exists ts ts', show_elements (show_value F (show F ord n h) false) i xs = Ok ts /\
      show_elements (show_value F (show F ord' n' h') false) i xs' = Ok ts' /\ (b = true -> ts' = ts).
  Proof.
    intros Hp HF. induction HF as [|x x' xs xs' Hx _ IH]; intros i Hn.
    - exists 0. intros n' _. by exists [], [].
    - cbn [show_elements] in *.
      assert (Hv : sv (match x with Some l => VRef l | None => VNil end) (match x' with Some l => VRef l | None => VNil end)).
      { destruct Hx; [by apply sv_mk|by left]. }
      set (v := match x with Some l => VRef l | None => VNil end) in *. set (v' := match x' with Some l => VRef l | None => VNil end) in *.
      destruct (kd_value n false v v' Hp Hv) as [N1 H1]. { intros E. apply Hn. by rewrite E. }
      assert (exists t, show_value F (show F ord n h) false v = Ok t) as [t Et].
      { destruct (H1 N1 ltac:(done)) as [[(s & s' & E1 & _)|[E1 _]] _]; [eauto|]. by destruct (show_value_no_panic F (show F ord n h) false v). }
      rewrite Et in Hn. cbn [obind] in Hn. destruct (IH (i + 1)%Z) as [N2 H2]. { intros E. apply Hn. by rewrite E. }
      exists (N1 + N2). intros n' Hle. destruct (H1 n' ltac:(lia)) as [[(s & s' & E1 & E2)|[E1 _]] Hb]; [|congruence].
      destruct (H2 n' ltac:(lia)) as (ts & ts' & E3 & E4 & Hts). rewrite Et in E1. injection E1 as <-.
      rewrite Et, E3, E2, E4. cbn [obind]. eexists _, _. split; [done|]. split; [done|]. intros Hbt. rewrite (Hts Hbt). specialize (Hb Hbt). rewrite Et, E2 in Hb. by injection Hb as ->.
  Qed.
  Lemma show_in n go l x m : inside h l x m -> show F ord n h go l <> NoFuel -> exists n2, n2 <= n /\ show F ord n h go l = show F ord n2 h go x.
  Proof.
    intros Hi. revert n. induction Hi as [l m E|l d x m E _ IH]; intros n Hn; [by exists n|].
    destruct n as [|n]; [done|]. cbn [show] in *. rewrite E in *. destruct (IH n Hn) as (n2 & ? & ?). exists n2. split; [lia|done].
  Qed.
  Lemma show_out go l' x' m' : inside h' l' x' m' -> exists k, forall n, show F ord' (k + n) h' go l' = show F ord' n h' go x'.
  Proof.
    induction 1 as [l m E|l d x m E _ [k IH]]; [by exists 0|]. exists (S k). intros n. cbn [Nat.add show]. rewrite E. apply IH.
  Qed.
  Lemma kd_show n : forall n0, n0 <= n -> forall go, prompt n0 go.
  Proof using Ha Ho Ho'.
    induction n as [|n IH]; intros n0 Hle go l l' HR Hn; [by destruct n0; [|lia]|].
    destruct (Ha _ _ HR) as [x m x' m' Hi Hi' _ Hm|xs xs' Hc Hc' HF Hk|H1 H2].
    - destruct (show_in n0 go l x m Hi Hn) as (n2 & Hn2 & E). rewrite E in *. destruct n2 as [|n2]; [done|]. cbn [show] in *. apply inside_at in Hi as Hx. apply inside_at in Hi' as Hx'.
      rewrite Hx in *. assert (Hp : prompt n2 go) by (apply IH; lia).
      destruct (follow_order R m m' (ord h m) Hm (Ho h m)) as (l2 & Hp2 & HF).
      destruct (kd_entries n2 go (ord h m) l2 Hp HF) as [N HN]. { intros E2. apply Hn. by rewrite E2. }
      destruct (show_out go l' x' m' Hi') as [k Hkk]. exists (k + S N). intros n' Hle'.
      replace n' with (k + S (n' - k - 1)) by lia. rewrite Hkk. cbn [show]. rewrite Hx'.
      destruct (HN (n' - k - 1) ltac:(lia)) as (ts & ts' & E1 & E2 & Hts). rewrite E1. cbn [obind].
      assert (Hq : l2 ≡ₚ ord' h' m') by (etrans; [done|symmetry; apply Ho']).
      pose proof (show_entries_perm (show_value F (show F ord' (n' - k - 1) h') go) _ _ Hq (show_value_no_panic F _ _)) as Hs. rewrite E2 in Hs.
      destruct (show_entries _ (ord' h' m')) as [t3| |]; [|done|done]. cbn [obind]. split; [left; eauto|]. intros Hbt. rewrite (Hts Hbt) in Hs. by rewrite (sort_strings_perm _ _ Hs).
    - destruct n0 as [|n0]; [done|]. assert (Hp : prompt n0 false) by (apply IH; lia).
      assert (Hn2 : show_elements (show_value F (show F ord n0 h) false) 0 xs <> NoFuel).
      { intros E. apply Hn. cbn [show]. destruct Hc as [Hc|Hc]; rewrite Hc, E; done. }
      destruct (kd_elements n0 xs xs' Hp HF 0%Z Hn2) as [N HN]. exists (S N). intros [|n'] Hle'; [lia|].
      destruct (HN n' ltac:(lia)) as (ts & ts' & E1 & E2 & Hts). cbn [show].
      destruct Hc as [Hc|Hc], Hc' as [Hc'|Hc']; rewrite Hc, Hc', E1, E2; cbn [obind]; (split; [left; eauto|]); intros Hbt; rewrite (Hts Hbt); try done.
      + apply (Hk Hbt) in Hc. congruence.
      + apply (Hk Hbt) in Hc'. congruence.
    - destruct n0 as [|n0]; [done|]. exists 1. intros [|n'] ?; [lia|]. cbn [show]. rewrite H1, H2. split; [by right|done].
  Qed.
  Lemma kd_prints v v' s : b = true \/ (forall l, v = VRef l -> h !! l = None) -> sv v v' -> prints F ord h v s -> prints F ord' h' v' s.
  Proof using Ha Ho Ho'.
    intros Hb Hv [n H]. unfold sprint in H. destruct Hb as [Hb|Hne].
    - destruct (kd_value n false v v' (kd_show n n ltac:(done) false) Hv) as [N HN]; [by rewrite H|].
      exists N. unfold sprint. destruct (HN N ltac:(done)) as [_ E]. by rewrite (E Hb).
    - destruct Hv as [[-> Hv]|(d & d' & -> & -> & HR)].
      + exists n. rewrite <- H. unfold sprint. destruct v; try done. by destruct (Hv l).
      + exists 1. specialize (Hne d eq_refl). unfold sprint. destruct n as [|n]; [done|]. simpl in H |- *. rewrite Hne in H. rewrite <- H.
        destruct (Ha _ _ HR) as [x m x' m' Hi _ _ _|xs xs' [Hc|Hc] _ _ _|_ ->]; [|congruence|congruence|done]. destruct Hi; congruence.
  Qed.
  Lemma kd_prints_some v v' s : sv v v' -> prints F ord h v s -> exists s', prints F ord' h' v' s'.
  Proof using Ha Ho Ho'.
    intros Hv [n H]. unfold sprint in H.
    destruct (kd_value n false v v' (kd_show n n ltac:(done) false) Hv) as [N HN]; [by rewrite H|].
    destruct (HN N ltac:(done)) as [[(s1 & s' & _ & E)|[E _]] _]; [|by rewrite H in E]. exists s', N. exact E.
  Qed.
  Lemma kd_dumps d d' s : b = true -> R d d' -> dumps F ord h d s -> dumps F ord' h' d' s.
  Proof using Ha Ho Ho'.
    intros Hb HR [n H]. destruct (kd_show n n ltac:(done) true d d' HR) as [N HN]; [by rewrite H|]. exists N. destruct (HN N ltac:(done)) as [_ E]. by rewrite (E Hb).
  Qed.
  Lemma kd_field sc sc' key s : b = true \/ to_values h key -> Forall2 R sc sc' -> field_text F ord h sc key s -> field_text F ord' h' sc' key s.
  Proof using Ha Ho Ho'.
    intros Hb HF [Hf|Hf|v t Hf Hn Hp]; destruct (kd_found _ _ _ _ Ha _ _ _ Hf _ HF) as (r' & Hf' & Hr); inversion Hr as [? v' Hv|]; subst.
    - by apply ft_missing.
    - apply ft_nil. by rewrite (proj1 (sv_nil _ _ _ Hv) eq_refl) in Hf'.
    - eapply ft_value; [done| |eapply kd_prints; [|done|done]]. { intros ->. apply Hn. by apply (sv_nil R v VNil). }
      destruct Hb as [Hb|Hb]; [by left|right]. intros l ->. exfalso. destruct (found_end _ _ _ _ Hf) as [(k & Ht & Hbi)|(k & i & Ht & Hd)].
      + by apply (proj2 (Hb k Ht) l).
      + by apply (proj1 (Hb k Ht) i).
  Qed.
  Lemma show_text n : forall go l, show F ord n h go l <> Ok [].
  Proof.
    induction n as [|n IH]; intros go l; [done|]. cbn [show]. destruct (h !! l) as [[m|[d|]|xs|xs]|]; [|apply IH|done| | |done].
    - destruct (show_entries _ _); [|done|done]. cbn [obind]. by destruct go.
    - by destruct (show_elements _ _ _).
    - by destruct (show_elements _ _ _).
  Qed.
  Lemma empty_plain v : prints F ord h v [] -> forall l, v <> VRef l.
  Proof.
    intros [n H] l ->. unfold sprint in H. simpl in H. pose proof (show_text n false l) as Hs. destruct (show F ord n h false l); [|done|done]. by injection H as ->.
  Qed.
  Lemma kd_blank r r' : option_Forall2 sv r r' -> blank F ord h r -> blank F ord' h' r'.
  Proof using Ha Ho Ho'.
    intros Hr Hb. destruct Hb as [| |v Hn Hp]; inversion Hr as [? v' Hv|]; subst.
    - apply bl_missing.
    - rewrite (proj1 (sv_nil _ _ _ Hv) eq_refl). apply bl_nil.
    - apply bl_empty; [|eapply kd_prints; [right|done|done]; intros l ->; by destruct (empty_plain _ Hp l)]. intros ->. apply Hn. by apply (sv_nil R v VNil).
  Qed.
End Print.
Lemma kd_nonempty R b h h' F ord ord' v v' w : alike R b h h' -> order_ok ord -> order_ok ord' -> same_value R v v' -> prints F ord h v w -> w <> [] ->
  exists w', prints F ord' h' v' w' /\ w' <> [].
Proof.
  intros Ha Ho Ho' Hv Hp Hw. destruct (kd_prints_some R b h h' Ha F ord ord' Ho Ho' v v' w Hv Hp) as [w' Hw']. exists w'. split; [done|]. intros ->.
  apply Hw. pose proof (empty_plain h' F ord' v' Hw') as Hne. destruct Hv as [[-> _]|(d & d' & -> & -> & _)]; [|by destruct (Hne d')].
  destruct Hp as [n Hp], Hw' as [n' Hw']. unfold sprint in *. destruct v; simpl in *; try congruence. by destruct (Hne l).
Qed.
