(** * The first pass of the compiler: the regular expression and the words of the language. *)
From Verif Require Import GoBase GoStrings GoStringsProofs Regex DatasetModel TemplateModel TemplateSpec.

(** ** Matches of simple expressions *)
Lemma is_true (c x : ascii) : is c x = true <-> x = c.
Proof. unfold is. by rewrite bool_decide_eq_true. Qed.
Lemma is_refl (c : ascii) : is c c = true.
Proof. by apply is_true. Qed.
Lemma matches_chr c s : matches (chr c) s = match s with x :: s' => if is c x then [Mtch [x] [] s'] else [] | [] => [] end.
Proof. done. Qed.
Lemma matches_cat a b s : matches (Cat a b) s =
  flat_map (fun m => map (fun m' => Mtch (m_text m ++ m_text m') (m_groups m' ++ m_groups m) (m_rest m')) (matches b (m_rest m))) (matches a s).
Proof. done. Qed.

Fixpoint span (p : ascii -> bool) (s : bytes) : bytes * bytes :=
  match s with
  | [] => ([], [])
  | c :: s' => if p c then let '(w, r) := span p s' in (c :: w, r) else ([], s)
  end.
Lemma span_app p s : let '(w, r) := span p s in s = w ++ r /\ Forall (fun c => p c = true) w /\ (forall c r', r = c :: r' -> p c = false).
Proof.
  induction s as [|c s IH]; simpl; [done|].
  destruct (p c) eqn:Hc.
  - destruct (span p s) as [w r]. destruct IH as (-> & Hw & Hr). split; [done|]. split; [by constructor|done].
  - split; [done|]. split; [constructor|]. intros x r' [= <- <-]. done.
Qed.
Lemma span_unique p w r : Forall (fun c => p c = true) w -> (forall c r', r = c :: r' -> p c = false) -> span p (w ++ r) = (w, r).
Proof.
  intros Hw Hr. induction Hw as [|c w Hc Hw IH]; simpl.
  - destruct r as [|c r']; [done|]. simpl. by rewrite (Hr c r').
  - by rewrite Hc, IH.
Qed.

Lemma flat_map_map {A C E} (f : C -> list E) (g : A -> C) l : flat_map f (map g l) = flat_map (fun x => f (g x)) l.
Proof. induction l as [|x l IH]; simpl; [done|]. by rewrite IH. Qed.
Lemma flat_map_ext' {A C} (f g : A -> list C) l : (forall x, f x = g x) -> flat_map f l = flat_map g l.
Proof. intros H. induction l as [|x l IH]; simpl; [done|]. by rewrite H, IH. Qed.
(** Only the longest run can be followed by something that starts outside of the class. *)
Lemma flat_lazy {C} p (K : bytes -> bytes -> list C) s :
  (forall w c r, p c = true -> K w (c :: r) = []) ->
  flat_map (fun m => K (m_text m) (m_rest m)) (lazy_matches p s) = K (span p s).1 (span p s).2.
Proof.
  revert K. induction s as [|c s IH]; intros K HK; simpl; [by rewrite app_nil_r|].
  destruct (p c) eqn:Hc; simpl.
  - rewrite HK by done. simpl. rewrite flat_map_map. simpl.
    rewrite (IH (fun w r => K (c :: w) r)); [|auto]. destruct (span p s) as [w r]. done.
  - by rewrite app_nil_r.
Qed.
Lemma lazy_groups p s : Forall (fun m => m_groups m = []) (lazy_matches p s).
Proof.
  induction s as [|c s IH]; simpl; [by repeat constructor|].
  constructor; [done|]. destruct (p c); [|constructor]. apply Forall_fmap. eapply Forall_impl; [exact IH|]. done.
Qed.
Lemma flat_map_Forall {A C} (P : A -> Prop) (f g : A -> list C) l : Forall P l -> (forall x, P x -> f x = g x) -> flat_map f l = flat_map g l.
Proof. intros HP H. induction HP as [|x l Hx _ IH]; simpl; [done|]. by rewrite (H x Hx), IH. Qed.

(** ** Elements of the form [cc word dd] followed by the expression [D] *)
Definition wrapped (g1 g2 : nat) (c : ascii) (p : ascii -> bool) (D : re) : re :=
  Cat (Group g1 (chr c)) (Cat (chr c) (Cat (Group g2 (Cat (One p) (Lazy p))) D)).
Lemma matches_wrapped g1 g2 c p D s : (forall x r, p x = true -> matches D (x :: r) = []) ->
  matches (wrapped g1 g2 c p D) s =
  match s with
  | x :: y :: z :: s' =>
      if is c x && is c y && p z then
        map (fun m => Mtch (c :: c :: z :: (span p s').1 ++ m_text m) (m_groups m ++ [(g2, z :: (span p s').1); (g1, [c])]) (m_rest m))
            (matches D (span p s').2)
      else []
  | _ => []
  end.
Proof.
  intros HD. unfold wrapped. rewrite matches_cat. cbn [matches].
  destruct s as [|x s]; [done|]. unfold chr. cbn [matches].
  destruct (is c x) eqn:Hx; [|by destruct s as [|? [|? ?]]].
  apply is_true in Hx as ->.
  cbn [map flat_map m_text m_groups m_rest app].
  destruct s as [|y s]; [done|]. destruct (is c y) eqn:Hy; [|by destruct s].
  apply is_true in Hy as ->. rewrite app_nil_r. cbn [flat_map m_text m_groups m_rest map app]. rewrite app_nil_r.
  destruct s as [|z s]; [done|]. destruct (p z) eqn:Hz; [|done]. cbn [andb flat_map map m_rest m_text m_groups app].
  rewrite !app_nil_r, !flat_map_map. cbn [m_text m_groups m_rest].
  rewrite (flat_map_Forall (fun m => m_groups m = []) _
    (fun m => map (fun m' => Mtch ((z :: m_text m) ++ m_text m') (m_groups m' ++ [(g2, z :: m_text m)]) (m_rest m')) (matches D (m_rest m)))
    _ (lazy_groups p s)) by (intros m ->; done).
  rewrite (flat_lazy p (fun w r => map (fun m' => Mtch ((z :: w) ++ m_text m') (m_groups m' ++ [(g2, z :: w)]) (m_rest m')) (matches D r)))
    by (intros w c' r Hc'; by rewrite HD).
  rewrite !map_map. apply map_ext. intros m. cbn. f_equal; rewrite <- ?app_assoc; done.
Qed.

(** ** Line ends *)
Lemma matches_opt_newline g s : exists m l, matches (Opt (Group g newline)) s = m :: l /\ line_end s (m_rest m) /\
  (forall k, k <> g -> group k (m_groups m) = []) /\ s = m_text m ++ m_rest m.
Proof.
  destruct s as [|c s].
  - eexists _, _. split; [reflexivity|]. split; [by apply le_none|]. done.
  - destruct (decide (c = lf)) as [->|Hlf]; [|destruct (decide (c = cr)) as [->|Hcr]].
    + eexists _, _. split; [reflexivity|]. split; [apply le_lf|]. split; [|done].
      intros k Hk. simpl. by destruct (Nat.eqb_spec k g).
    + eexists _, _. split; [reflexivity|]. split; [apply le_cr|]. split; [|done].
      intros k Hk. simpl. by destruct (Nat.eqb_spec k g).
    + assert (H : matches newline (c :: s) = []).
      { unfold newline. cbn [alts matches str chr map app].
        assert (E1 : is lf c = false) by (unfold is; by apply bool_decide_eq_false).
        assert (E2 : is cr c = false) by (unfold is; by apply bool_decide_eq_false).
        unfold chr. cbn [matches]. rewrite E1, E2. done. }
      cbn [matches]. rewrite H. eexists _, _. split; [reflexivity|]. split; [|done].
      apply le_none. intros x r [= <- <-]. split; [exact Hlf|exact Hcr].
Qed.
Lemma line_end_unique s r1 r2 : line_end s r1 -> line_end s r2 -> r1 = r2.
Proof.
  intros H1 H2; inversion H1 as [a E1|a E1|a Ha E1]; inversion H2 as [b E2|b E2|b Hb E2]; subst; try congruence;
    try (edestruct Ha as [? ?]; [reflexivity|congruence]); try (edestruct Hb as [? ?]; [reflexivity|congruence]).
Qed.

(** ** Comments *)
Lemma matches_str w s : matches (str w) s = match strip_prefix w s with Some r => [Mtch w [] r] | None => [] end.
Proof.
  revert s. induction w as [|c w IH]; intros s; [done|].
  destruct w as [|c' w].
  - cbn [str]. rewrite matches_chr. destruct s as [|x s]; [done|]. unfold is. simpl.
    destruct (ascii_dec c x) as [->|H]; [by rewrite bool_decide_eq_true_2|].
    rewrite bool_decide_eq_false_2; [done|]. intros ->. done.
  - change (str (c :: c' :: w)) with (Cat (chr c) (str (c' :: w))). rewrite matches_cat, matches_chr.
    destruct s as [|x s]; [done|]. unfold is. change (strip_prefix (c :: c' :: w) (x :: s)) with
      (if ascii_dec c x then strip_prefix (c' :: w) s else None).
    destruct (ascii_dec c x) as [->|H].
    + rewrite bool_decide_eq_true_2 by done. cbn [flat_map m_rest m_text m_groups]. rewrite IH, app_nil_r.
      destruct (strip_prefix (c' :: w) s); done.
    + rewrite bool_decide_eq_false_2; [done|]. intros ->. done.
Qed.
Lemma strip_prefix_some w s r : strip_prefix w s = Some r <-> s = w ++ r.
Proof.
  revert s. induction w as [|c w IH]; intros s; simpl; [by split; intros [= ->]|].
  destruct s as [|x s]; [done|]. destruct (ascii_dec c x) as [->|H].
  - rewrite IH. split; [by intros ->|by intros [= ->]].
  - split; [done|]. by intros [= -> ->].
Qed.
Lemma lazy_all p s m : m ∈ lazy_matches p s -> s = m_text m ++ m_rest m /\ m_groups m = [].
Proof.
  revert m. induction s as [|c s IH]; intros m; simpl.
  - by intros ->%elem_of_list_singleton.
  - intros [->|Hm]%elem_of_cons; [done|]. destruct (p c); [|by apply elem_of_nil in Hm].
    apply elem_of_list_fmap in Hm as (m' & -> & Hm'). destruct (IH _ Hm') as [-> _]. done.
Qed.
Lemma flat_first {C} (K : bytes -> bytes -> list C) s m l :
  flat_map (fun x => K (m_text x) (m_rest x)) (lazy_matches (fun _ => true) s) = m :: l ->
  exists w r l', s = w ++ r /\ K w r = m :: l' /\ (forall a b, w = a ++ b -> b <> [] -> K a (b ++ r) = []).
Proof.
  revert K. induction s as [|c s IH]; intros K; simpl.
  - rewrite app_nil_r. intros H. exists [], [], l. split; [done|]. split; [done|].
    intros a b Hab Hb. destruct a, b; done.
  - destruct (K [] (c :: s)) as [|m' l'] eqn:HK; simpl.
    + rewrite flat_map_map. simpl. intros H. destruct (IH (fun w r => K (c :: w) r) H) as (w & r & l' & -> & Hw & Hmin).
      exists (c :: w), r, l'. split; [done|]. split; [done|].
      intros [|x a] b Hab Hb; simpl in *; [by subst|]. injection Hab as <- ->. by apply Hmin.
    + intros [= -> _]. exists [], (c :: s), l'. split; [done|]. split; [done|].
      intros a b Hab Hb. destruct a, b; done.
Qed.
Lemma flat_at {C} (K : bytes -> bytes -> list C) w r :
  (forall a b, w = a ++ b -> b <> [] -> K a (b ++ r) = []) ->
  exists l', flat_map (fun x => K (m_text x) (m_rest x)) (lazy_matches (fun _ => true) (w ++ r)) = K w r ++ l'.
Proof.
  revert K. induction w as [|c w IH]; intros K Hmin; simpl.
  - destruct r as [|c r]; simpl; [by exists []|]. by eexists.
  - change (c :: w ++ r) with ((c :: w) ++ r). rewrite (Hmin [] (c :: w)) by done. simpl. rewrite flat_map_map. simpl.
    apply (IH (fun w r => K (c :: w) r)). intros a b -> Hb. by apply Hmin.
Qed.

Lemma map_flat_map {A C E} (f : C -> E) (g : A -> list C) l : map f (flat_map g l) = flat_map (fun x => map f (g x)) l.
Proof. induction l as [|x l IH]; simpl; [done|]. by rewrite map_app, IH. Qed.

Definition comment_re : re :=
  Cat (Group 1 (str (B "%"))) (Cat (str (B "--")) (Cat (Group 2 (Lazy (fun _ => true))) (Cat (str (B "--%")) (Opt (Group 3 newline))))).
Definition tail_re : re := Cat (str (B "--%")) (Opt (Group 3 newline)).
Lemma matches_comment s : matches comment_re s =
  match strip_prefix (B "%--") s with
  | None => []
  | Some s' => flat_map (fun x => (fun w r => map (fun m => Mtch (B "%--" ++ w ++ m_text m) (m_groups m ++ [(2%nat, w); (1%nat, B "%")]) (m_rest m))
                                     (matches tail_re r)) (m_text x) (m_rest x)) (lazy_matches (fun _ => true) s')
  end.
Proof.
  unfold comment_re. rewrite matches_cat. cbn [matches]. rewrite matches_str.
  destruct s as [|x s]; [done|]. cbn [B list_ascii_of_string strip_prefix].
  destruct (ascii_dec "%" x) as [<-|H]; [|done]. cbn [map flat_map m_rest m_text m_groups app]. rewrite matches_str.
  change (B "--") with ["-"%char; "-"%char]. cbn [strip_prefix].
  destruct s as [|y s]; [done|]. destruct (ascii_dec "-" y) as [<-|H]; [|done].
  destruct s as [|z s]; [done|]. destruct (ascii_dec "-" z) as [<-|H]; [|done].
  cbn [map flat_map m_rest m_text m_groups app]. rewrite !app_nil_r, flat_map_map. cbn [m_rest m_text m_groups app].
  rewrite !map_flat_map. apply (flat_map_Forall (fun m => m_groups m = []) _ _ _ (lazy_groups _ s)).
  intros m Hm. unfold tail_re. rewrite (matches_cat (str _)). cbn [matches]. rewrite !map_map. apply map_ext. intros m'.
  cbn [m_rest m_text m_groups app]. rewrite Hm. f_equal. rewrite <- !app_assoc. done.
Qed.
Lemma matches_tail r m l : matches tail_re r = m :: l ->
  exists s, r = B "--%" ++ s /\ line_end s (m_rest m) /\ (forall k, k <> 3%nat -> group k (m_groups m) = []).
Proof.
  unfold tail_re. rewrite matches_cat, matches_str.
  destruct (strip_prefix (B "--%") r) as [s|] eqn:Hs; [|done]. apply strip_prefix_some in Hs as ->.
  cbn [flat_map m_rest m_text m_groups]. rewrite app_nil_r.
  destruct (matches_opt_newline 3 s) as (m' & l' & E & Hle & Hg & _). rewrite E. cbn [map]. intros [= <- _].
  cbn [m_rest m_groups]. exists s. split; [done|]. split; [done|]. intros k Hk. rewrite app_nil_r. by apply Hg.
Qed.
Lemma matches_tail_some s : exists m l, matches tail_re (B "--%" ++ s) = m :: l /\ line_end s (m_rest m) /\
  (forall k, k <> 3%nat -> group k (m_groups m) = []).
Proof.
  destruct (matches tail_re (B "--%" ++ s)) as [|m l] eqn:E.
  - exfalso. revert E. unfold tail_re. rewrite matches_cat, matches_str, (proj2 (strip_prefix_some _ _ s) eq_refl).
    destruct (matches_opt_newline 3 s) as (m' & l' & E & _). cbn [flat_map m_rest]. by rewrite E.
  - destruct (matches_tail _ _ _ E) as (s' & Hs & H). apply app_inv_head in Hs as <-. eauto.
Qed.
Lemma group_app k a b : group k a = [] -> (forall w, (k, w) ∈ a -> w <> []) -> group k (a ++ b) = group k b.
Proof.
  induction a as [|[k' w] a IH]; simpl; [done|]. intros H Hn.
  destruct (Nat.eqb_spec k k') as [->|Hk].
  - exfalso. apply (Hn w); [by left|done].
  - apply IH; [done|]. intros w' Hw'. apply Hn. by right.
Qed.
(** Groups that are set by a part of the expression. *)
Fixpoint sets (r : re) (k : nat) : Prop :=
  match r with
  | Cat a b | Alt a b => sets a k \/ sets b k
  | Opt a => sets a k
  | Group n a => k = n \/ sets a k
  | _ => False
  end.
Lemma sets_groups r s m k w : m ∈ matches r s -> (k, w) ∈ m_groups m -> sets r k.
Proof.
  revert s m w. induction r as [|p|a IHa b IHb|a IHa b IHb|p|a IHa|n a IHa]; intros s m w Hm Hk; cbn [matches sets] in *.
  - apply elem_of_list_singleton in Hm as ->. by apply elem_of_nil in Hk.
  - destruct s as [|c s]; [by apply elem_of_nil in Hm|]. destruct (p c); [|by apply elem_of_nil in Hm].
    apply elem_of_list_singleton in Hm as ->. by apply elem_of_nil in Hk.
  - apply elem_of_list_In, in_flat_map in Hm as (m1 & H1 & H2). apply elem_of_list_In in H1.
    apply elem_of_list_In, elem_of_list_fmap in H2 as (m2 & -> & H2). cbn [m_groups] in Hk.
    apply elem_of_app in Hk as [Hk|Hk]; [right; by eapply IHb|left; by eapply IHa].
  - apply elem_of_app in Hm as [Hm|Hm]; [left; by eapply IHa|right; by eapply IHb].
  - apply lazy_all in Hm as [_ E]. rewrite E in Hk. by apply elem_of_nil in Hk.
  - apply elem_of_app in Hm as [Hm|Hm]; [by eapply IHa|]. apply elem_of_list_singleton in Hm as ->. by apply elem_of_nil in Hk.
  - apply elem_of_list_fmap in Hm as (m' & -> & Hm). cbn [m_groups] in Hk.
    apply elem_of_cons in Hk as [[= -> _]|Hk]; [by left|]. right. by eapply IHa.
Qed.
Lemma group_not_set r s m k gs : m ∈ matches r s -> ~ sets r k -> group k (m_groups m ++ gs) = group k gs.
Proof.
  intros Hm Hk. assert (H : forall w, (k, w) ∉ m_groups m) by (intros w Hw; by eapply Hk, sets_groups).
  induction (m_groups m) as [|[k' w] g IH]; [done|]. simpl.
  destruct (Nat.eqb_spec k k') as [->|_]; [exfalso; eapply H; by left|]. apply IH. intros w' Hw'. eapply (H w'). by right.
Qed.

(** ** Character classes *)
Lemma between_true a b c : between a b c = true <-> (N_of_ascii a <= N_of_ascii c <= N_of_ascii b)%N.
Proof. unfold between. by rewrite bool_decide_eq_true. Qed.
Lemma one_of_true s c : one_of s c = true <-> c ∈ s.
Proof. unfold one_of. by rewrite bool_decide_eq_true. Qed.
Lemma word_true c : word c = true <-> entry_char c.
Proof.
  unfold word, any_of, entry_char, lower_or_digit, upper, code. simpl. rewrite !orb_true_iff, !between_true, one_of_true.
  simpl. split; [intros [?|[?|[?|[?|?]]]]|intros [[?|?]|[?|?]]]; naive_solver.
Qed.
Lemma path_char_true c : path_char c = true <-> field_char c.
Proof.
  unfold path_char, any_of, field_char. simpl. rewrite !orb_true_iff, word_true, one_of_true. naive_solver.
Qed.
Lemma box_char_true c : box_char c = true <-> name_char c.
Proof.
  unfold box_char, any_of, name_char, lower_or_digit, code. simpl. rewrite !orb_true_iff, !between_true, one_of_true.
  simpl. unfold B. simpl. rewrite !elem_of_cons, !elem_of_nil.
  split; [intros [?|[?|[?|?]]]|intros [[?|?]|?]]; naive_solver.
Qed.
