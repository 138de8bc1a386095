(** * Proofs for C128: small texts with long pages. *)
From Verif Require Import GoBase GoStrings DatasetModel LangModel DatasetSpec DatasetProofs TemplateModel TemplateSpec WriteSpec WriteProofs RenderSpec RenderProofs.
Local Open Scope nat_scope.

Definition nm (i : nat) : bytes := replicate (S i) "a"%char.
Definition storey (m i : nat) : list token := match i with 0 => [TText (B "x")] | S j => replicate m (TRef (nm j)) end.
(** Box number i+1 refers m times to box number i. *)
Definition tower (m n : nat) : list node := map (fun i => Part (nm i) (map Word (storey m i))) (seq 0 (S n)) ++ [Word (TRef (nm n))].
Definition pageful (k : nat) : bytes := replicate k "x"%char.

Lemma nm_chars i c : c ∈ nm i -> c = "a"%char. Proof. intros H. by apply elem_of_replicate in H as [-> _]. Qed.
Lemma nm_length i : length (nm i) = S i. Proof. apply replicate_length. Qed.
Lemma nm_inj i j : nm i = nm j -> i = j. Proof. intros E. apply (f_equal length) in E. rewrite !nm_length in E. lia. Qed.
Lemma nm_part i j : part (nm i) (nm j) <-> i = j.
Proof.
  split.
  - intros (_ & _ & a & b & E & Ha & Hb). assert (Hno : forall u v, nm i <> u ++ "|"%char :: v).
    { intros u v Eu. assert ("|"%char ∈ nm i) as Hin by (rewrite Eu; apply elem_of_app; right; by left). apply nm_chars in Hin. discriminate Hin. }
    destruct Ha as [->|[a' ->]]; [|by destruct (Hno a' (nm j ++ b)); rewrite E, <- app_assoc].
    destruct Hb as [->|[b' ->]]; [|by destruct (Hno (nm j) b'); rewrite E]. rewrite app_nil_r in E. by apply nm_inj.
  - intros ->. split; [done|]. split; [intros Hin%nm_chars; discriminate Hin|]. exists [], []. split; [by rewrite app_nil_r|]. split; by left.
Qed.
Lemma nm_split i : split_on ":"%char (nm i) = [nm i].
Proof. apply separated_split. split; [|by cbn; rewrite app_nil_r]. constructor; [|done]. intros H%nm_chars. discriminate H. Qed.
Lemma words_map l : words (map Word l) = l.
Proof. induction l as [|t l IH]; [done|]. unfold words in *. cbn. by rewrite IH. Qed.
Lemma words_app a b : words (a ++ b) = words a ++ words b. Proof. apply flat_map_app. Qed.
Definition boxed (m i : nat) : list token := TOpen (nm i) :: storey m i ++ [TClose].
Lemma words_part m i : node_words (Part (nm i) (map Word (storey m i))) = boxed m i.
Proof. unfold boxed. cbn [node_words]. do 2 f_equal. apply words_map. Qed.
Lemma words_tower m n : words (tower m n) = flat_map (boxed m) (seq 0 (S n)) ++ [TRef (nm n)].
Proof.
  unfold tower. rewrite words_app. f_equal. generalize (seq 0 (S n)). intros l. induction l as [|i l IH]; [done|]. cbn [map flat_map].
  unfold words in *. cbn [flat_map]. by rewrite words_part, IH.
Qed.
Lemma tower_proper m n : Forall proper (tower m n).
Proof.
  unfold tower. apply Forall_app. split; [|constructor; [by constructor|done]]. apply Forall_map, Forall_true. intros i. constructor. intros x Hx.
  apply elem_of_list_fmap in Hx as (t & -> & Ht). constructor; destruct i as [|i]; cbn in Ht; [|intros n'|..].
  all: try (apply elem_of_list_singleton in Ht as ->; done). all: try (apply elem_of_replicate in Ht as [-> _]; done).
Qed.
Lemma ref_writable i : writable (TRef (nm i)).
Proof. split; [done|]. apply Forall_forall. intros c ->%nm_chars. left. left. left. split; vm_compute; discriminate. Qed.
Lemma tower_writable m n : Forall writable (words (tower m n)).
Proof.
  rewrite words_tower. apply Forall_app. split; [|constructor; [apply ref_writable|done]]. apply Forall_forall. intros t Ht.
  apply elem_of_list_In, in_flat_map in Ht as (i & _ & Ht). apply elem_of_list_In in Ht. unfold boxed in Ht.
  apply elem_of_cons in Ht as [->|Ht]; [|apply elem_of_app in Ht as [Ht|Ht%elem_of_list_singleton]; [|by subst]].
  - split; [done|]. apply Forall_forall. intros c ->%nm_chars. left. left. split; vm_compute; discriminate.
  - destruct i as [|i]; cbn in Ht.
    + apply elem_of_list_singleton in Ht as ->. split; [done|]. intros a b mk Hm E. repeat (apply elem_of_cons in Hm as [->|Hm]; [destruct a as [|? [|]]; discriminate|]). by apply elem_of_nil in Hm.
    + apply elem_of_replicate in Ht as [-> _]. apply ref_writable.
Qed.

Definition is_text (t : token) : bool := match t with TText _ => true | _ => false end.
Definition texts (l : list token) : nat := length (List.filter is_text l).
Lemma texts_app a b : texts (a ++ b) = texts a + texts b. Proof. unfold texts. by rewrite List.filter_app, app_length. Qed.
Lemma texts_boxed m i : texts (boxed m i) = if bool_decide (i = 0) then 1 else 0.
Proof.
  destruct i as [|i]; [done|]. unfold boxed. cbn [storey]. change (TOpen (nm (S i)) :: ?l) with ([TOpen (nm (S i))] ++ l). rewrite !texts_app.
  induction m as [|m IH]; [done|]. cbn [replicate]. change (TRef (nm i) :: ?l) with ([TRef (nm i)] ++ l). rewrite texts_app. exact IH.
Qed.
Lemma texts_none m l : Forall (fun i => i <> 0) l -> texts (flat_map (boxed m) l) = 0.
Proof. induction 1 as [|i l Hi _ IH]; [done|]. cbn [flat_map]. rewrite texts_app, IH, texts_boxed, bool_decide_eq_false_2 by done. done. Qed.
Lemma tower_apart m n : apart (words (tower m n)).
Proof.
  intros a x y b E. apply (f_equal texts) in E. rewrite words_tower, texts_app in E. cbn [seq flat_map] in E.
  rewrite texts_app, texts_none in E by (apply Forall_seq; lia). rewrite texts_app in E.
  change (texts (boxed m 0)) with 1 in E. change (texts [TRef (nm n)]) with 0 in E. unfold texts in E. cbn in E. lia.
Qed.

Lemma page_app a b : page (a ++ b) = page a ++ page b. Proof. unfold page. by rewrite map_app, concat_app. Qed.
Lemma page_refs m i : length (page (replicate m (TRef (nm i)))) = m * (i + 5).
Proof.
  induction m as [|m IH]; [done|]. change (replicate (S m) (TRef (nm i))) with ([TRef (nm i)] ++ replicate m (TRef (nm i))). rewrite page_app, app_length, IH.
  unfold page. cbn [map source concat]. rewrite !app_length, nm_length. cbn. lia.
Qed.
Lemma page_boxed m i n : i <= n -> length (page (boxed m i)) <= (m + 2) * (n + 10).
Proof.
  intros Hi. unfold boxed. change (TOpen (nm i) :: ?l) with ([TOpen (nm i)] ++ l). rewrite !page_app, !app_length.
  assert (length (page (storey m i)) <= m * (n + 10) + 1).
  { destruct i as [|i]; cbn [storey]; [cbn; lia|]. rewrite page_refs. nia. }
  unfold page at 1 3. cbn [map source concat]. rewrite !app_length, nm_length. cbn. lia.
Qed.
Lemma page_boxes m n l : Forall (fun i => i <= n) l -> length (page (flat_map (boxed m) l)) <= length l * ((m + 2) * (n + 10)).
Proof.
  induction 1 as [|i l Hi _ IH]; [done|]. cbn [flat_map length]. rewrite page_app, app_length. pose proof (page_boxed m i n Hi). lia.
Qed.
Lemma tower_length m n : length (page (words (tower m n))) <= (m + 2) * (n + 10) ^ 2.
Proof.
  rewrite words_tower, page_app, app_length. pose proof (page_boxes m n (seq 0 (S n)) ltac:(apply Forall_seq; lia)) as H. rewrite seq_length in H.
  pose proof (page_refs 1 n) as H1. cbn [replicate] in H1. rewrite H1. rewrite Nat.pow_2_r. nia.
Qed.

Lemma leaves_words is l : map node_of is = map Word l -> leaves is = l /\ forall x b c, Box x b c ∉ is.
Proof.
  revert l. induction is as [|[k|x b c] is IH]; intros [|t l] E; try discriminate E; cbn in E.
  - split; [done|]. intros ? ? ? H. by apply elem_of_nil in H.
  - injection E as -> E. destruct (IH l E) as [IH1 IH2]. split; [cbn; f_equal; exact IH1|]. intros x b c H. apply elem_of_cons in H as [H|H]; [done|]. by apply (IH2 x b c).
Qed.
Lemma leaves_tower is f l t : map node_of is = map (fun i : nat => Part (nm i) (f i)) l ++ [Word t] -> leaves is = [t].
Proof.
  revert is. induction l as [|i l IH]; intros [|[k|x b c] is] E; try discriminate E; cbn in E.
  - injection E as -> E. by destruct is.
  - injection E as _ _ E. apply (IH is E).
Qed.
Lemma node_in is x b c : Box x b c ∈ is -> Part b (map node_of c) ∈ map node_of is.
Proof. intros H. apply (elem_of_list_fmap_1 node_of) in H. exact H. Qed.

Lemma concat_pages (m k : nat) : concat (replicate m (pageful k)) = pageful (m * k).
Proof. induction m as [|m IH]; [done|]. cbn [replicate concat Nat.mul]. rewrite IH. unfold pageful. by rewrite replicate_add. Qed.
Section Run.
  Context (F : golib) (ord : heap -> gmap bytes value -> list (bytes * value)) (th : theap).
  Lemma get_here f T t name x : th !! t = Some T -> (t_subs T ≫= lookup name) = Some x -> get_template (S f) th t name = Ok (Some x).
  Proof. intros HT H. cbn [get_template]. rewrite HT. destruct (t_subs T) as [s|]; [|discriminate H]. cbn in *. by rewrite H. Qed.
  Lemma get_up f T t t' name r : th !! t = Some T -> (t_subs T ≫= lookup name) = None -> t_father T = Some t' -> get_template f th t' name = r ->
    get_template (S f) th t name = r.
  Proof. intros HT H Hf <-. cbn [get_template]. rewrite HT. destruct (t_subs T) as [s|]; cbn in *; [rewrite H|]; by rewrite Hf. Qed.
  Lemma refs_run f lg inj st t i x out m : get_template f th t (nm i) = Ok (Some x) -> inj st x = Ok (st, out) ->
    do_params F ord th f lg inj st t (map stored (replicate m (TRef (nm i)))) = Ok (st, replicate m out).
  Proof.
    intros Hg Hi. induction m as [|m IH]; [done|]. cbn [replicate map do_params stored].
    unfold do_param at 1. cbn [p_type p_data]. rewrite nm_split. cbn [bool_decide]. unfold do_reference, lookup_template.
    change (bool_decide (3%Z = MString)) with false. change (bool_decide (3%Z = MComment)) with false. change (bool_decide (3%Z = MLanguage)) with false.
    change (bool_decide (3%Z = MReference)) with true. cbn iota. rewrite Hg. cbn [obind]. unfold run_on. rewrite Hi. cbn [obind].
    rewrite IH. done.
  Qed.
  Context (m n : nat) (t : loc) (is : list item).
  Hypothesis Etower : map node_of is = tower m n.
  Hypothesis Hload : loaded th ∅ t is.
  Lemma tower_boxes i : i <= n -> exists x X, (exists T, th !! t = Some T /\ (t_subs T ≫= lookup (nm i)) = Some x) /\ th !! x = Some X /\
    t_root X = Some (map stored (storey m i)) /\ t_father X = Some t /\ forall j, (t_subs X ≫= lookup (nm j)) = None.
  Proof using Etower Hload.
    intros Hi. destruct Hload as (T & HT & Hroot & Hreg & Hbox). pose proof Etower as E. unfold tower in E.
    assert (Es : seq 0 (S n) = seq 0 i ++ i :: seq (S i) (n - i)).
    { replace (S n) with (i + S (n - i)) by lia. by rewrite seq_app. }
    rewrite Es, map_app, <- app_assoc in E. cbn [map app] in E.
    apply fmap_app_inv in E as (a & b & E1 & E2 & Eis). destruct b as [|[k|x b0 c] b]; try discriminate E2. cbn in E2. injection E2 as Eb E2 E3. change (nm i = b0) in Eb. subst b0. symmetry in E2. change (node_of <$> b) with (map node_of b) in E3.
    destruct (leaves_words _ _ E2) as [El Hno].
    assert (Hb : box_ok th t (Box x (nm i) c)). { apply Hbox. rewrite Eis. apply elem_of_app. right. by left. }
    inversion Hb as [|? ? ? X HX Hname Hr Hregs Hf Hin]; subst. exists x, X. split.
    { exists T. split; [done|]. apply (Hreg (nm i)). exists a, (nm i), c, b. split; [done|]. split; [by apply nm_part|].
      intros x' nm' body' Hx' Hp. apply node_in in Hx'. rewrite <- E3 in Hx'. apply elem_of_app in Hx' as [Hx'|Hx'].
      - apply elem_of_list_fmap in Hx' as (j & Ej & Hj). injection Ej as Ej _. change (nm' = nm j) in Ej. subst nm'. apply nm_part in Hp as ->. apply elem_of_seq in Hj. lia.
      - apply elem_of_list_singleton in Hx'. discriminate Hx'. }
    split; [done|]. split; [by rewrite Hr, El|]. split; [apply Hf; exists (nm i); by apply nm_part|].
    intros j. destruct (Hregs (nm j)) as [_ H]. rewrite H; [apply lookup_empty|]. intros y (a' & nm' & body' & b' & Ec & _ & _). apply (Hno y nm' body').
    rewrite Ec. apply elem_of_app. right. by left.
  Qed.
  Lemma box_run i x T : i <= n -> th !! t = Some T -> (t_subs T ≫= lookup (nm i)) = Some x -> forall f lg st, i + 3 <= f ->
    injector F ord th f lg st x = Ok (st, pageful (m ^ i)).
  Proof using Etower Hload.
    revert x. induction i as [|i IH]; intros x Hi HT Hx f lg st Hf.
    - destruct (tower_boxes 0 Hi) as (x' & X & (T' & HT' & Hx') & HX & Hr & _). rewrite HT in HT'. injection HT' as <-. rewrite Hx in Hx'. injection Hx' as <-.
      destruct f as [|f]; [lia|]. cbn [injector]. rewrite HX, Hr. done.
    - destruct (tower_boxes (S i) Hi) as (x' & X & (T' & HT' & Hx') & HX & Hr & Hfa & Hn). rewrite HT in HT'. injection HT' as <-. rewrite Hx in Hx'. injection Hx' as <-.
      destruct (tower_boxes i ltac:(lia)) as (y & Y & (T' & HT' & Hy) & _). rewrite HT in HT'. injection HT' as <-.
      destruct f as [|f]; [lia|]. cbn [injector]. rewrite HX, Hr. cbn [storey].
      rewrite (refs_run f lg _ st x i y (pageful (m ^ i)) m).
      + cbn [obind]. by rewrite concat_pages.
      + destruct f as [|[|f]]; [lia|lia|]. specialize (Hn i). apply (get_up _ X _ t); [done|done|done|]. by apply (get_here _ T).
      + apply IH; [lia|done|done|lia].
  Qed.
  Lemma tower_run f lg st : n + 4 <= f -> injector F ord th f lg st t = Ok (st, pageful (m ^ n)).
  Proof using Etower Hload.
    intros Hf. destruct (tower_boxes n (le_n n)) as (x & X & (T & HT & Hx) & _).
    destruct Hload as (T' & HT' & Hroot & _). rewrite HT in HT'. injection HT' as <-. rewrite (leaves_tower _ _ _ _ Etower) in Hroot.
    destruct f as [|f]; [lia|]. cbn [injector]. rewrite HT, Hroot. change [TRef (nm n)] with (replicate 1 (TRef (nm n))).
    rewrite (refs_run f lg _ st t n x (pageful (m ^ n)) 1).
    - cbn [obind replicate concat]. by rewrite app_nil_r.
    - destruct f as [|f]; [lia|]. by apply (get_here _ T).
    - apply (box_run n x T); [lia|done|done|lia].
  Qed.
End Run.

Lemma tower_executes F ord langs th m n : exists text th' t, length text <= (m + 2) * (n + 10) ^ 2 /\ new_template th text = (th', Some t) /\
  (forall h f, n + 4 <= f -> execute F ord langs th' f h t None = Ok (h, replicate (m ^ n) "x"%char)) /\
  (forall h d, chain h d -> exists n0, forall f, n0 <= f -> execute F ord langs th' f h t (Some d) = Ok (h, replicate (m ^ n) "x"%char)).
Proof.
  destruct (page_tree th _ (tower_proper m n) (tower_writable m n) (tower_apart m n)) as (th' & t & is & Hnew & Eis & Hl & _).
  exists (page (words (tower m n))), th', t. split; [apply tower_length|]. split; [done|]. split.
  - intros h f Hf. unfold execute. by rewrite (tower_run F ord th' m n t is Eis Hl).
  - intros h d Hc. assert (Hg : exists n r, dget n h d (B "#") = Ok r).
    { induction Hc as [l m' Hl'|l d Hl' Hc (n' & r & IH)].
      - exists 1%nat. simpl. rewrite Hl'. eexists. reflexivity.
      - exists (S n'), r. cbn [dget]. by rewrite Hl'. }
    destruct Hg as (n1 & r & Hg). exists (n1 + n + 4). intros f Hf. unfold execute.
    rewrite (dget_mono n1 f h d (B "#") (Ok r)); [|lia|done|done]. cbn [obind].
    by rewrite (tower_run F ord th' m n t is Eis Hl) by lia.
Qed.
