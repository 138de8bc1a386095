(** * Printing languages and datasets. *)
From Verif Require Import GoBase GoStrings GoStringsProofs LangModel LangSpec DatasetModel DatasetSpec.
From Verif Require Import DatasetProofs2 DatasetProofs3 DatasetProofs4 TextSpec.
From Coq Require Import Lia.
Local Open Scope Z_scope.

Lemma bytes_le_order a b : bytes_le a b <-> string_order a b.
Proof.
  unfold bytes_le, string_order. revert b. induction a as [|x a IH]; intros b.
  { simpl. split; [|done]. intros _. left. by exists b. }
  destruct b as [|y b]; simpl.
  { split; [done|]. intros [[r Hr]|(p & u & v & a' & b' & _ & Hb & _)]; [done|]. by destruct p. }
  destruct (N.compare_spec (N_of_ascii x) (N_of_ascii y)) as [He|Hl|Hg].
  - assert (x = y) as -> by (rewrite <- (ascii_N_embedding x), He; apply ascii_N_embedding). rewrite IH. split.
    + intros [[r ->]|(p & u & v & a' & b' & -> & -> & Hlt)]; [left; by exists r|]. right. exists (y :: p), u, v, a', b'. done.
    + intros [[r Hr]|(p & u & v & a' & b' & Ha & Hb & Hlt)].
      * left. exists r. by injection Hr.
      * destruct p as [|z p]; simpl in Ha, Hb; [injection Ha as -> ->; injection Hb as -> ->; lia|].
        injection Ha as -> ->. injection Hb as ->. right. exists p, u, v, a', b'. done.
  - split; [|done]. intros _. right. exists [], x, y, a, b. done.
  - split; [done|]. intros [[r Hr]|(p & u & v & a' & b' & Ha & Hb & Hlt)].
    + injection Hr as -> ->. lia.
    + destruct p as [|z p]; simpl in Ha, Hb; [injection Ha as -> ->; injection Hb as -> ->; lia|].
      injection Ha as -> ->. injection Hb as ->. lia.
Qed.
Lemma StronglySorted_iff {A} (R S : A -> A -> Prop) l : (forall a b, R a b <-> S a b) -> StronglySorted R l -> StronglySorted S l.
Proof.
  intros H. induction 1 as [|x l _ IH Hf]; constructor; [done|]. eapply Forall_impl; [exact Hf|]. intros y. apply H.
Qed.
Lemma sorted_words_spec words r : sort_strings words = r <-> sorted_words words r.
Proof.
  rewrite sort_strings_spec. unfold sorted_words. split; intros [H1 H2]; (split; [done|]); eapply StronglySorted_iff; [|exact H2| |exact H2].
  - intros a b. apply bytes_le_order.
  - intros a b. symmetry. apply bytes_le_order.
Qed.
Lemma spaced_out_join ws t : spaced_out ws t <-> t = join (B " ") ws.
Proof.
  split.
  - induction 1 as [|w|w ws t Hne _ ->]; [done..|]. by destruct ws.
  - intros ->. induction ws as [|w ws IH]; [constructor|]. destruct ws as [|w' ws]; [constructor|].
    change (join (B " ") (w :: w' :: ws)) with (w ++ B " " ++ join (B " ") (w' :: ws)). by constructor.
Qed.
Lemma braced_spec start words t : braced start words t <-> t = start ++ join (B " ") (sort_strings words) ++ B "}".
Proof.
  unfold braced. split.
  - intros (r & body & Hr & Hb & ->). apply sorted_words_spec in Hr. apply spaced_out_join in Hb. by rewrite Hr, Hb.
  - intros ->. eexists _, _. split; [by apply sorted_words_spec|]. split; [by apply spaced_out_join|]. done.
Qed.

(** ** Languages *)
Lemma lang_string_text quote (m : table) order : order_of m order ->
  braced (B "xcore.XLanguage{") (map (fun kv => kv.1 ++ B ":" ++ kv.2) (map_to_list m)) (lstring order) /\
  braced (B "#xcore.XLanguage{") (map (fun kv => kv.1 ++ B ":" ++ quote kv.2) (map_to_list m)) (lgostring quote order).
Proof.
  intros Ho. rewrite !braced_spec. unfold lstring, lgostring.
  rewrite (sort_strings_perm _ _ (Permutation_map (fun kv => kv.1 ++ B ":" ++ kv.2) Ho)).
  rewrite (sort_strings_perm _ _ (Permutation_map (fun kv => kv.1 ++ B ":" ++ quote kv.2) Ho)). done.
Qed.
Lemma app_colon_inj (k1 k2 v1 v2 : bytes) : ":"%char ∉ k1 -> ":"%char ∉ k2 -> k1 ++ B ":" ++ v1 = k2 ++ B ":" ++ v2 -> k1 = k2 /\ v1 = v2.
Proof.
  revert k2. induction k1 as [|x k1 IH]; intros [|y k2] H1 H2 E; simpl in *.
  - by injection E.
  - injection E as <- _. by destruct H2; left.
  - injection E as -> _. by destruct H1; left.
  - injection E as -> E. destruct (IH k2) as [-> ->]; [by intros ?; destruct H1; right|by intros ?; destruct H2; right|done|done].
Qed.
Lemma map_perm_inj {A B0} (f : A -> B0) (P : A -> Prop) l1 l2 :
  (forall x y, P x -> P y -> f x = f y -> x = y) -> Forall P l1 -> Forall P l2 -> map f l1 ≡ₚ map f l2 -> l1 ≡ₚ l2.
Proof.
  intros Hi. revert l2. induction l1 as [|x l1 IH]; intros l2 H1 H2 Hp; simpl in Hp.
  - apply Permutation_nil in Hp. by destruct l2.
  - inversion H1; subst. assert (Hin : f x ∈ map f l2) by (rewrite <- Hp; left).
    apply elem_of_list_fmap in Hin as (y & Hy & Hin). apply elem_of_list_split in Hin as (a & b & ->).
    apply Forall_app in H2 as [Ha Hb]. inversion Hb; subst. assert (x = y) as -> by (by apply Hi).
    rewrite map_app in Hp. simpl in Hp. rewrite <- Permutation_middle. constructor. apply IH; [done|by apply Forall_app|].
    rewrite map_app. rewrite <- Permutation_middle in Hp. by apply Permutation_cons_inv in Hp.
Qed.
Lemma lstring_inj (m1 m2 : table) o1 o2 : order_of m1 o1 -> order_of m2 o2 -> readable m1 -> readable m2 ->
  lstring o1 = lstring o2 -> m1 = m2.
Proof.
  intros H1 H2 R1 R2 E. unfold lstring in E. apply app_inv_head, app_inv_tail in E.
  set (f := fun kv : bytes * bytes => kv.1 ++ B ":" ++ kv.2) in *.
  change (join (B " ") (sort_strings (map f o1)) = join (B " ") (sort_strings (map f o2))) in E.
  assert (Hok : forall (m : table) o, order_of m o -> readable m ->
     Forall (fun kv => " "%char ∉ kv.1 /\ " "%char ∉ kv.2 /\ ":"%char ∉ kv.1) o).
  { intros m o Ho Hr. rewrite Ho. apply Forall_forall. intros [k v] Hin. apply elem_of_map_to_list in Hin. by apply Hr. }
  pose proof (Hok _ _ H1 R1) as P1. pose proof (Hok _ _ H2 R2) as P2.
  assert (Hw : forall o, Forall (fun kv => " "%char ∉ kv.1 /\ " "%char ∉ kv.2 /\ ":"%char ∉ kv.1) o ->
     Forall (fun w => " "%char ∉ w /\ w <> []) (sort_strings (map f o))).
  { intros o Ho. assert (Hp : sort_strings (map f o) ≡ₚ map f o) by apply merge_sort_Permutation. rewrite Hp. apply Forall_map.
    eapply Forall_impl; [exact Ho|]. intros [k v] (A1 & A2 & _). simpl in *. split.
    - unfold f. simpl. intros Hc. apply elem_of_app in Hc as [?|Hc]; [done|]. apply elem_of_cons in Hc as [Hc|Hc]; done.
    - unfold f. by destruct k. }
  pose proof (Hw _ P1) as W1. pose proof (Hw _ P2) as W2.
  assert (Hs : sort_strings (map f o1) = sort_strings (map f o2)).
  { revert E W1 W2. generalize (sort_strings (map f o1)) (sort_strings (map f o2)). intros l1 l2 E W1 W2.
    assert (Hsp : forall l, Forall (fun w => " "%char ∉ w /\ w <> []) l -> l <> [] -> split_on " "%char (join [" "%char] l) = l).
    { intros l Hl Hne. apply split_join; [done|]. eapply Forall_impl; [exact Hl|]. by intros w [? _]. }
    assert (Hj : forall l, Forall (fun w => " "%char ∉ w /\ w <> []) l -> l <> [] -> join [" "%char] l <> []).
    { intros l Hl Hne Ej. pose proof (Hsp l Hl Hne) as Hx. rewrite Ej in Hx. simpl in Hx. subst l. inversion Hl as [|? ? [_ Hc] _]. done. }
    change (B " ") with [" "%char] in E.
    destruct l1 as [|a l1], l2 as [|b l2]; [done|..].
    - destruct (Hj (b :: l2) W2); [done|]. symmetry. exact E.
    - destruct (Hj (a :: l1) W1); [done|]. exact E.
    - rewrite <- (Hsp _ W1), <- (Hsp _ W2) by done. by rewrite E. }
  assert (Hp : map f o1 ≡ₚ map f o2).
  { assert (X1 : sort_strings (map f o1) ≡ₚ map f o1) by apply merge_sort_Permutation.
    assert (X2 : sort_strings (map f o2) ≡ₚ map f o2) by apply merge_sort_Permutation. rewrite <- X1, Hs. exact X2. }
  assert (Hperm : o1 ≡ₚ o2).
  { eapply (map_perm_inj f); [|exact P1|exact P2|exact Hp]. intros [k1 v1] [k2 v2] (_ & _ & A) (_ & _ & A') E'. simpl in *.
    destruct (app_colon_inj k1 k2 v1 v2 A A' E') as [Ek Ev]. by rewrite Ek, Ev. }
  apply map_to_list_inj. rewrite <- H1, <- H2. done.
Qed.

Lemma braced_unique start words t1 t2 : braced start words t1 -> braced start words t2 -> t1 = t2.
Proof. rewrite !braced_spec. by intros -> ->. Qed.
Lemma lstring_ambiguous : exists (m1 m2 : table) o1 o2, order_of m1 o1 /\ order_of m2 o2 /\ m1 <> m2 /\ lstring o1 = lstring o2.
Proof.
  exists (<[B "a" := B "1 b:2"]> ∅), (<[B "a" := B "1"]> (<[B "b" := B "2"]> ∅)), [(B "a", B "1 b:2")], [(B "a", B "1"); (B "b", B "2")].
  split; [unfold order_of; by apply (bool_decide_unpack _); vm_compute|]. split; [unfold order_of; by apply (bool_decide_unpack _); vm_compute|]. split; [|by vm_compute].
  intros E. apply (f_equal (lookup (B "a"))) in E. rewrite !lookup_insert in E. done.
Qed.

(** ** Datasets *)
Section Dataset.
  Context (F : golib) (ord : heap -> gmap bytes value -> list (bytes * value)) (Hord : order_ok ord).
  Notation prints := (prints F). Notation prints_value := (prints_value F). Notation elements := (elements F).
  Notation show := (show F ord). Notation show_value := (show_value F).

  Lemma whole_child h l d : whole h l -> child h l d -> whole h d.
  Proof. intros Hc Hch x Hx. apply Hc. eapply rtc_l; done. Qed.
  Lemma show_panics n h go l : whole h l -> show n h go l = Panic -> hollow h l.
  Proof.
    revert go l. induction n as [|n IH]; intros go l Hc H; [done|]. cbn [show] in H. destruct (Hc l) as [o Ho]; [by apply rtc_refl|]. rewrite Ho in H.
    assert (Hen : forall f l, (forall v, f v <> Panic) -> show_entries f l <> Panic).
    { intros f l' Hf. induction l' as [|[k v] l' IHl]; [done|]. cbn [show_entries]. pose proof (Hf v). destruct (f v); try done. cbn [obind].
      by destruct (show_entries f l'). }
    assert (Hel : forall f i xs, (forall v, f v <> Panic) -> show_elements f i xs <> Panic).
    { intros f i xs Hf. revert i. induction xs as [|x xs IHx]; intros i; [done|]. cbn [show_elements].
      pose proof (Hf (match x with Some l => VRef l | None => VNil end)) as Hx. destruct (f _); try done. cbn [obind].
      specialize (IHx (i + 1)). by destruct (show_elements f (i + 1) xs). }
    destruct o as [m|[d|]|xs|xs].
    - pose proof (Hen (show_value (show n h) go) (ord h m) (show_value_no_panic F _ _)). by destruct (show_entries _ _).
    - eapply ho_wrapper; [done|]. apply (IH go); [|done]. eapply whole_child; [exact Hc|by eapply child_ts].
    - by constructor.
    - pose proof (Hel (show_value (show n h) false) 0 xs (show_value_no_panic F _ _)). by destruct (show_elements _ _ _).
    - pose proof (Hel (show_value (show n h) false) 0 xs (show_value_no_panic F _ _)). by destruct (show_elements _ _ _).
  Qed.
  Lemma hollow_panics h l : hollow h l -> forall go, exists n, show n h go l = Panic.
  Proof.
    induction 1 as [l Hl|l d Hl _ IH]; intros go; [exists 1%nat; simpl; by rewrite Hl|]. destruct (IH go) as [n Hn]. exists (S n). cbn [show]. by rewrite Hl.
  Qed.
  Lemma show_panic h go l : whole h l -> (exists n, show n h go l = Panic) <-> hollow h l.
  Proof. intros Hc. split; [intros [n Hn]; by eapply show_panics|intros Hh; by apply hollow_panics]. Qed.

  (** From the code to the description. *)
  Lemma show_entries_inv f (l : list (bytes * value)) sd : show_entries f l = Ok sd ->
    exists ts, Forall2 (fun kv t => f kv.2 = Ok t) l ts /\ sd = zip_with (fun kv t => kv.1 ++ B ":" ++ t) l ts.
  Proof.
    revert sd. induction l as [|[k v] l IH]; intros sd H; cbn [show_entries] in H.
    - injection H as <-. exists []. done.
    - destruct (f v) as [t| |] eqn:E; try done. cbn [obind] in H. destruct (show_entries f l) as [sd'| |]; try done. injection H as <-.
      destruct (IH sd' eq_refl) as (ts & Hts & ->). exists (t :: ts). split; [by constructor|done].
  Qed.
  Lemma show_elements_inv f i xs t : show_elements f i xs = Ok t ->
    exists ts, Forall2 (fun x w => f (match x with Some l => VRef l | None => VNil end) = Ok w) xs ts /\ numbered i ts t.
  Proof.
    revert i t. induction xs as [|x xs IH]; intros i t H; cbn [show_elements] in H.
    - injection H as <-. exists []. split; constructor.
    - destruct (f _) as [w| |] eqn:E; try done. cbn [obind] in H. destruct (show_elements f (i + 1) xs) as [t'| |] eqn:E2; try done.
      injection H as <-. destruct (IH _ _ E2) as (ts & Hts & Hn). exists (w :: ts). split; by constructor.
  Qed.
  Lemma zip_text (text : bytes -> bytes) (l : list (bytes * value)) (ts : list bytes) : length l = length ts ->
    (forall i (kv : bytes * value) (w : bytes), l !! i = Some kv -> ts !! i = Some w -> text kv.1 = w) ->
    zip_with (fun kv t => kv.1 ++ B ":" ++ t) l ts = map (fun kv => kv.1 ++ B ":" ++ text kv.1) l.
  Proof.
    revert ts. induction l as [|kv l IH]; intros [|w ts] Hlen H; try done.
    pose proof (H 0%nat kv w eq_refl eq_refl) as <-. simpl. f_equal. apply IH; [by injection Hlen|]. intros i. apply (H (S i)).
  Qed.
  Lemma show_prints n h go l t : whole h l -> show n h go l = Ok t -> prints h go l t.
  Proof.
    revert go l t. induction n as [|n IH]; intros go l t Hc H; [done|]. cbn [show] in H.
    assert (Hval : forall go v w, (forall d, v = VRef d -> whole h d) -> show_value (show n h) go v = Ok w -> prints_value h go v w).
    { intros go' v w Hd Hv. destruct v; try (simpl in Hv; injection Hv as <-; by apply (pv_plain F h go')).
      simpl in Hv. destruct (show n h go' l0) as [w'| |] eqn:E; try done; injection Hv as <-.
      - constructor. apply IH; [by apply Hd|done].
      - assert (panic_text go' = recovered go') as -> by (by destruct go'). apply pv_hollow. eapply show_panics; [by apply Hd|exact E]. }
    assert (Hels : forall xs ts, collection_at h l xs -> Forall2 (fun x w => show_value (show n h) false (match x with Some l => VRef l | None => VNil end) = Ok w) xs ts ->
       elements h xs ts).
    { intros xs ts Hl Hf. assert (Hx : forall d, Some d ∈ xs -> whole h d) by (intros d Hd; eapply whole_child; [exact Hc|by eapply child_coll]).
      clear Hl. induction Hf as [|x w xs ts Hw Hf IHf]; [constructor|]. 
      assert (elements h xs ts) by (apply IHf; intros d Hd; apply Hx; by right).
      destruct x as [d|].
      - apply Hval in Hw; [|intros d' [= <-]; apply Hx; left]. inversion Hw as [? ? Hne|? ? ? Hp|? ? Hh]; subst; [by edestruct Hne|by constructor|by apply el_hollow].
      - simpl in Hw. injection Hw as <-. by constructor. }
    destruct (h !! l) as [[m|[d|]|xs|xs]|] eqn:Hl; try done.
    - destruct (show_entries (show_value (show n h) go) (ord h m)) as [sd| |] eqn:E; try done. cbn [obind] in H. injection H as <-.
      apply show_entries_inv in E as (ts & Hts & ->).
      assert (Hnd : NoDup (ord h m).*1) by (rewrite (Hord h m); apply NoDup_fst_map_to_list).
      set (text := fun k : bytes => default [] ((list_to_map (zip ((ord h m).*1) ts) : gmap bytes bytes) !! k) : bytes).
      assert (Hlen : length (ord h m) = length ts) by (by eapply Forall2_length).
      assert (Htext : forall i (kv : bytes * value) (w : bytes), ord h m !! i = Some kv -> ts !! i = Some w -> text kv.1 = w).
      { intros i kv w Hi Hw. unfold text. erewrite elem_of_list_to_map_1; [done| |].
        - rewrite fst_zip; [exact Hnd|]. rewrite fmap_length. apply Nat.eq_le_incl. exact Hlen.
        - apply elem_of_list_lookup. exists i. rewrite lookup_zip_with, list_lookup_fmap, Hi. cbn. by rewrite Hw. }
      eapply (pr_ds F h go l m text); [done| |].
      + intros k v Hk. apply elem_of_map_to_list in Hk. rewrite <- (Hord h m) in Hk. apply elem_of_list_lookup in Hk as [i Hi].
        destruct (Forall2_lookup_l _ _ _ _ _ Hts Hi) as (w & Hw & Hv). rewrite (Htext _ _ _ Hi Hw : text k = w). simpl in Hv.
        apply Hval; [|done]. intros d ->. eapply whole_child; [exact Hc|]. eapply child_ds; [done|].
        apply elem_of_map_to_list. rewrite <- (Hord h m). by eapply elem_of_list_lookup_2.
      + apply braced_spec. f_equal. f_equal. f_equal. apply sort_strings_perm.
        rewrite <- (Permutation_map (fun kv => kv.1 ++ B ":" ++ text kv.1) (Hord h m)).
        assert (He : zip_with (fun kv t => kv.1 ++ B ":" ++ t) (ord h m) ts = map (fun kv => kv.1 ++ B ":" ++ text kv.1) (ord h m)); [|by rewrite He].
        apply zip_text; [exact Hlen|exact Htext].
    - eapply pr_ts; [done|]. apply IH; [|done]. eapply whole_child; [exact Hc|by eapply child_ts].
    - destruct (show_elements _ 0 xs) as [t'| |] eqn:E; try done. cbn [obind] in H. injection H as <-.
      apply show_elements_inv in E as (ts & Hts & Hn). eapply pr_coll; [done| |done]. apply Hels; [by left|done].
    - destruct (show_elements _ 0 xs) as [t'| |] eqn:E; try done. cbn [obind] in H. injection H as <-.
      apply show_elements_inv in E as (ts & Hts & Hn). eapply pr_collts; [done| |done]. apply Hels; [by right|done].
  Qed.

  (** From the description to the code. *)
  Scheme prints_mut := Induction for TextSpec.prints Sort Prop
    with prints_value_mut := Induction for TextSpec.prints_value Sort Prop
    with elements_mut := Induction for TextSpec.elements Sort Prop.
  Lemma show_value_up n m h go v w : (n <= m)%nat -> show_value (show n h) go v = Ok w -> show_value (show m h) go v = Ok w.
  Proof. intros Hn H. eapply show_value_mono; [|exact H|done]. intros. eapply show_mono; eauto. Qed.
  Lemma show_entries_up h go (text : bytes -> bytes) (l : list (bytes * value)) :
    Forall (fun kv => exists n, show_value (show n h) go kv.2 = Ok (text kv.1)) l ->
    exists n, show_entries (show_value (show n h) go) l = Ok (map (fun kv => kv.1 ++ B ":" ++ text kv.1) l).
  Proof.
    induction 1 as [|[k v] l [n1 H1] _ [n2 H2]]; [by exists 0%nat|]. exists (n1 `max` n2)%nat. cbn [show_entries].
    rewrite (show_value_up n1 _ _ _ _ _ (Nat.le_max_l _ _) H1). cbn [obind].
    rewrite (show_entries_mono (show_value (show n2 h) go) (show_value (show (n1 `max` n2) h) go) l
      (Ok (map (fun kv => kv.1 ++ B ":" ++ text kv.1) l))); [done| |exact H2|done].
    intros v' y Hy Hne. eapply show_value_mono; [|exact Hy|done]. intros. eapply show_mono; [|done|done]. lia.
  Qed.
  Lemma prints_show h go l t : prints h go l t -> exists n, show n h go l = Ok t.
  Proof.
    revert go l t. apply (prints_mut F h (fun go l t _ => exists n, show n h go l = Ok t)
      (fun go v t _ => exists n, show_value (show n h) go v = Ok t)
      (fun xs ts _ => forall i t, numbered i ts t -> exists n, show_elements (show_value (show n h) false) i xs = Ok t)).
    - intros go l m text t Hl _ IH Hb. apply braced_spec in Hb as ->.
      destruct (show_entries_up h go text (ord h m)) as [n Hn].
      { apply Forall_forall. intros [k v] Hin. rewrite (Hord h m) in Hin. apply elem_of_map_to_list in Hin. by apply IH. }
      exists (S n). cbn [show]. rewrite Hl, Hn. cbn [obind]. do 3 f_equal.
      by rewrite (sort_strings_perm _ _ (Permutation_map (fun kv => kv.1 ++ B ":" ++ text kv.1) (Hord h m))).
    - intros go l d t Hl _ [n Hn]. exists (S n). cbn [show]. by rewrite Hl.
    - intros go l xs ts t Hl _ IH Hn. destruct (IH _ _ Hn) as [n H]. exists (S n). cbn [show]. by rewrite Hl, H.
    - intros go l xs ts t Hl _ IH Hn. destruct (IH _ _ Hn) as [n H]. exists (S n). cbn [show]. by rewrite Hl, H.
    - intros go v Hv. exists 0%nat. destruct v; try done. by destruct (Hv l).
    - intros go d t _ [n Hn]. exists n. simpl. by rewrite Hn.
    - intros go d Hh. destruct (hollow_panics h d Hh go) as [n Hn]. exists n. simpl. rewrite Hn. by destruct go.
    - intros i t Hn. inversion Hn; subst. by exists 0%nat.
    - intros d t xs ts _ [n1 H1] _ IH i t' Hn. inversion Hn as [|? ? ? t2 Hn2]; subst. destruct (IH _ _ Hn2) as [n2 H2].
      exists (n1 `max` n2)%nat. cbn [show_elements].
      assert (Hv : show_value (show (n1 `max` n2) h) false (VRef d) = Ok t) by (simpl; by rewrite (show_mono F ord n1 _ h false d (Ok t) (Nat.le_max_l _ _) H1)).
      rewrite Hv. cbn [obind]. erewrite (show_elements_mono _ (show_value (show (n1 `max` n2) h) false)); [|..|exact H2|done]; [done|].
      intros v' y Hy Hne. eapply show_value_mono; [|exact Hy|done]. intros. eapply show_mono; [|done|done]. lia.
    - intros d xs ts Hh _ IH i t' Hn. inversion Hn as [|? ? ? t2 Hn2]; subst. destruct (IH _ _ Hn2) as [n2 H2]. destruct (hollow_panics h d Hh false) as [n1 H1].
      exists (n1 `max` n2)%nat. cbn [show_elements].
      assert (Hv : show_value (show (n1 `max` n2) h) false (VRef d) = Ok (recovered false)) by (simpl; by rewrite (show_mono F ord n1 _ h false d Panic (Nat.le_max_l _ _) H1)).
      rewrite Hv. cbn [obind]. erewrite (show_elements_mono _ (show_value (show (n1 `max` n2) h) false)); [|..|exact H2|done]; [done|].
      intros v' y Hy Hne. eapply show_value_mono; [|exact Hy|done]. intros. eapply show_mono; [|done|done]. lia.
    - intros xs ts _ IH i t' Hn. inversion Hn as [|? ? ? t2 Hn2]; subst. destruct (IH _ _ Hn2) as [n2 H2]. exists n2.
      cbn [show_elements]. simpl. by rewrite H2.
  Qed.
  Lemma show_text h go l t : whole h l -> returns (fun n => show n h go l) t <-> prints h go l t.
  Proof. intros Hc. split; [intros [n Hn]; by eapply show_prints|apply prints_show]. Qed.

  (** Only acyclic data can be printed. *)
  Lemma hollow_acyclic h l : hollow h l -> acyclic h l.
  Proof.
    induction 1 as [l Hl|l d Hl _ IH]; constructor; intros d' Hd; inversion Hd as [? m' k ? Hl' Hk|? ? Hl'|? xs ? Hl' Hx]; subst; try congruence.
    - destruct Hl'; congruence.
    - by assert (d' = d) as -> by congruence.
    - destruct Hl'; congruence.
  Qed.
  Lemma prints_acyclic h go l t : prints h go l t -> acyclic h l.
  Proof.
    revert go l t. apply (prints_mut F h (fun go l t _ => acyclic h l)
      (fun go v t _ => forall d, v = VRef d -> acyclic h d) (fun xs ts _ => forall d, Some d ∈ xs -> acyclic h d)).
    - intros go l m text t Hl _ IH _. constructor. intros d Hd. inversion Hd as [? m' k ? Hl' Hk|? ? Hl'|? xs ? Hl' Hx]; subst.
      + assert (m' = m) as -> by congruence. by eapply IH.
      + congruence.
      + destruct Hl'; congruence.
    - intros go l d t Hl _ IH. constructor. intros d' Hd. inversion Hd as [? m' k ? Hl' Hk|? ? Hl'|? xs ? Hl' Hx]; subst; [congruence|..].
      + by assert (d' = d) as -> by congruence.
      + destruct Hl'; congruence.
    - intros go l xs ts t Hl _ IH _. constructor. intros d Hd. inversion Hd as [? m' k ? Hl' Hk|? ? Hl'|? xs' ? Hl' Hx]; subst; [congruence..|].
      assert (xs' = xs) as -> by (destruct Hl'; congruence). by apply IH.
    - intros go l xs ts t Hl _ IH _. constructor. intros d Hd. inversion Hd as [? m' k ? Hl' Hk|? ? Hl'|? xs' ? Hl' Hx]; subst; [congruence..|].
      assert (xs' = xs) as -> by (destruct Hl'; congruence). by apply IH.
    - intros go v Hv d ->. by destruct (Hv d).
    - intros go d t _ IH d' [= <-]. done.
    - intros go d Hh d' [= <-]. by apply hollow_acyclic.
    - intros d Hd. by apply elem_of_nil in Hd.
    - intros d t xs ts _ IH1 _ IH2 d' [[= ->]|Hd]%elem_of_cons; [done|by apply IH2].
    - intros d xs ts Hh _ IH2 d' [[= ->]|Hd]%elem_of_cons; [by apply hollow_acyclic|by apply IH2].
    - intros xs ts _ IH d [?|Hd]%elem_of_cons; [done|by apply IH].
  Qed.
  Lemma show_diverges h go l x : whole h l -> reach h l x -> tc (child h) x x -> forall n, show n h go l = NoFuel.
  Proof.
    intros Hc Hr Ht n. destruct (show n h go l) as [t| |] eqn:E; [| |done]; destruct (cycle_not_acyclic h l x Hr Ht).
    - by eapply prints_acyclic, show_prints.
    - by eapply hollow_acyclic, show_panics.
  Qed.
  Lemma show_total h go l : whole h l -> acyclic h l -> (exists t, prints h go l t) \/ hollow h l.
  Proof.
    intros Hc Ha. revert go Hc. induction Ha as [l _ IH]. intros go Hc.
    assert (Hch : forall go d, child h l d -> (exists t, prints h go d t) \/ hollow h d) by (intros; apply IH; [done|by eapply whole_child]).
    assert (Hel : forall xs, collection_at h l xs -> exists ts, elements h xs ts).
    { intros xs Hl. assert (Hx : forall d, Some d ∈ xs -> (exists t, prints h false d t) \/ hollow h d) by (intros d Hd; apply Hch; by eapply child_coll).
      clear Hl. induction xs as [|x xs IHx]; [exists []; constructor|].
      destruct IHx as [ts Hts]; [intros d Hd; apply Hx; by right|]. destruct x as [d|].
      - destruct (Hx d) as [[t Ht]|Hh]; [left|exists (t :: ts); by constructor|]. exists (recovered false :: ts). by apply el_hollow.
      - exists (B "<nil>" :: ts). by constructor. }
    assert (Hnum : forall ts i, exists t, numbered i ts t).
    { intros ts. induction ts as [|w ts IHt]; intros i; [exists []; constructor|]. destruct (IHt (i + 1)) as [t Ht]. eexists. by constructor. }
    destruct (Hc l) as [o Ho]; [by apply rtc_refl|]. destruct o as [m|[d|]|xs|xs].
    - assert (Hm : forall l0 : list (bytes * value), (forall kv, kv ∈ l0 -> exists t, prints_value h go kv.2 t) -> NoDup l0.*1 ->
         exists text : bytes -> bytes, forall kv, kv ∈ l0 -> prints_value h go kv.2 (text kv.1)).
      { intros l0 H0 Hnd. induction l0 as [|[k v] l0 IHl]; [exists (fun _ => []); intros kv Hkv; by apply elem_of_nil in Hkv|].
        cbn [fmap list_fmap fst] in Hnd. apply NoDup_cons in Hnd as [Hn1 Hn2].
        destruct IHl as [text Ht]; [intros kv Hkv; apply H0; by right|done|]. destruct (H0 (k, v)) as [t Hvt]; [left|].
        exists (fun k' => if decide (k' = k) then t else text k'). intros kv [->|Hkv]%elem_of_cons; simpl.
        - by rewrite decide_True.
        - rewrite decide_False; [by apply Ht|]. intros E. apply Hn1. apply elem_of_list_fmap. exists kv. done. }
      destruct (Hm (map_to_list m)) as [text Ht]; [|apply NoDup_fst_map_to_list|].
      { intros [k v] Hin. apply elem_of_map_to_list in Hin. simpl. destruct v; try (eexists; by apply (pv_plain F h go)).
        destruct (Hch go l0) as [[t Ht]|Hh]; [by eapply child_ds|exists t; by constructor|]. eexists. by apply pv_hollow. }
      left. eexists. eapply (pr_ds F h go l m text); [done| |by apply braced_spec].
      intros k v Hk. apply (Ht (k, v)). by apply elem_of_map_to_list.
    - destruct (Hch go d) as [[t Ht]|Hh]; [by eapply child_ts|left; exists t; by eapply pr_ts|right; by eapply ho_wrapper].
    - right. by constructor.
    - destruct (Hel xs) as [ts Hts']; [by left|]. destruct (Hnum ts 0) as [t Ht]. left. eexists. by eapply pr_coll.
    - destruct (Hel xs) as [ts Hts']; [by right|]. destruct (Hnum ts 0) as [t Ht]. left. eexists. by eapply pr_collts.
  Qed.
  Lemma show_terminates h go l : whole h l -> acyclic h l -> ~ hollow h l -> exists t, returns (fun n => show n h go l) t.
  Proof. intros Hc Ha Hh. destruct (show_total h go l Hc Ha) as [[t Ht]|]; [|done]. exists t. by apply show_text. Qed.
End Dataset.
