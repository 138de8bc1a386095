(** * Loading of texts put together (C94). *)
From Verif Require Import GoBase GoStrings GoStringsProofs LangModel LangSpec LangProofs FlatSpec.

Lemma split_on_app_all c a b : split_on c (a ++ c :: b) = split_on c a ++ split_on c b.
Proof.
  induction a as [|x a IH]; simpl; [by destruct (ascii_dec c c)|]. destruct (ascii_dec x c); [by rewrite IH|].
  rewrite IH. pose proof (split_on_nonempty c a). by destruct (split_on c a).
Qed.
Lemma drop_last_empty_app xs ys : ys <> [] -> drop_last_empty (xs ++ ys) = xs ++ drop_last_empty ys.
Proof. intros H. induction xs as [|x xs IH]; simpl app; [done|]. rewrite drop_last_empty_cons; [by rewrite IH|]. by destruct xs. Qed.
Lemma drop_last_empty_cases xs : drop_last_empty xs = xs \/ xs = drop_last_empty xs ++ [[]].
Proof.
  destruct xs as [|x xs _] using rev_ind; [by left|]. rewrite drop_last_empty_app by done. destruct x as [|c x].
  - right. simpl. by rewrite app_nil_r.
  - by left.
Qed.
Lemma deliver_app xs ys : deliver (xs ++ ys) = let '(r, ok) := deliver xs in if ok then let '(r2, ok2) := deliver ys in (r ++ r2, ok2) else (r, false).
Proof.
  induction xs as [|x xs IH]; simpl; [by destruct (deliver ys)|]. destruct (bool_decide _); [done|]. rewrite IH.
  destruct (deliver xs) as [r []]; [|done]. by destruct (deliver ys).
Qed.
(** An empty last line changes nothing. *)
Lemma deliver_last l xs : let '(r, ok) := deliver xs in let '(r2, ok2) := deliver (drop_last_empty xs) in
  fold_left load_line r l = fold_left load_line r2 l /\ ok = ok2.
Proof.
  destruct (drop_last_empty_cases xs) as [->|E]; [by destruct (deliver xs)|].
  assert (deliver xs = deliver (drop_last_empty xs ++ [[]])) as -> by (by f_equal). rewrite deliver_app.
  destruct (deliver (drop_last_empty xs)) as [r []]; [|done]. simpl. split; [|done]. by rewrite fold_left_app.
Qed.
Lemma load_string_app l a b : load_string l (a ++ lf :: b) =
  (let '(l1, ok) := load_string l a in if ok then load_string l1 b else (l1, false)).
Proof.
  unfold load_string, scan_lines. rewrite split_on_app_all, drop_last_empty_app by apply split_on_nonempty. rewrite deliver_app.
  pose proof (deliver_last l (split_on lf a)) as H. destruct (deliver (split_on lf a)) as [r ok], (deliver (drop_last_empty (split_on lf a))) as [r2 ok2].
  destruct H as [H ->]. destruct ok2; [|by rewrite H].
  destruct (deliver (drop_last_empty (split_on lf b))) as [r3 ok3]. by rewrite fold_left_app, H.
Qed.
Lemma load_string_last l a : load_string l (a ++ [lf]) = load_string l a.
Proof. rewrite load_string_app. by destruct (load_string l a) as [l1 []]. Qed.

(** ** The entries of a list of lines *)
Definition names_entry (ls : list bytes) (k v : bytes) : Prop := exists l1 x l2, ls = l1 ++ x :: l2 /\ entry_line x k v /\ forall y w, y ∈ l2 -> ~ entry_line y k w.
Lemma names_entry_dec ls k : (exists v, names_entry ls k v) \/ forall y w, y ∈ ls -> ~ entry_line y k w.
Proof.
  induction ls as [|x ls [[v (l1 & y & l2 & -> & H)]|IH]].
  - right. intros y w Hy. by apply elem_of_nil in Hy.
  - left. exists v, (x :: l1), y, l2. done.
  - destruct (load_line_spec (new_lang [] []) x) as [(k' & v & He & _)|[Hn _]].
    + destruct (decide (k' = k)) as [->|Hne]; [left; by exists v, [], x, ls|right].
      intros y w [->|Hy]%elem_of_cons Hw; [|by eapply IH]. by destruct (entry_line_unique _ _ _ _ _ He Hw).
    + right. intros y w [->|Hy]%elem_of_cons; [apply Hn|by apply IH].
Qed.
Lemma overlay_lookup m ls m' k : overlay m ls m' -> (exists v, names_entry ls k v /\ m' !! k = Some v) \/
  ((forall y w, y ∈ ls -> ~ entry_line y k w) /\ m' !! k = m !! k).
Proof.
  intros Ho. destruct (names_entry_dec ls k) as [[v (l1 & x & l2 & -> & He & Hn)]|Hn].
  - left. exists v. split; [by exists l1, x, l2|]. by eapply overlay_last.
  - right. split; [done|]. by eapply overlay_keeps.
Qed.
Lemma names_entry_unique ls k v w : names_entry ls k v -> names_entry ls k w -> v = w.
Proof.
  intros (l1 & x & l2 & E & He & Hn) (l1' & x' & l2' & E' & He' & Hn'). subst ls. revert l1' E'.
  induction l1 as [|a l1 IH]; intros [|a' l1']; simpl; intros [= E1 E2]; subst.
  - by eapply entry_line_unique.
  - exfalso. eapply (Hn x' w); [set_solver|done].
  - exfalso. eapply (Hn' x v); [set_solver|done].
  - by eapply (IH l1').
Qed.
Lemma lang_eq l l' : l_entries l = l_entries l' -> l_status l = l_status l' -> l_name l = l_name l' -> l_tag l = l_tag l' -> l = l'.
Proof. destruct l, l'; simpl. by intros -> -> -> ->. Qed.
Lemma fold_twice ls l : fold_left load_line ls (fold_left load_line ls l) = fold_left load_line ls l.
Proof.
  destruct (load_lines_overlay l ls) as (H1 & H2 & H3 & H4). destruct (load_lines_overlay (fold_left load_line ls l) ls) as (K1 & K2 & K3 & K4).
  apply lang_eq; try done. apply map_eq. intros k.
  destruct (overlay_lookup _ _ _ k K1) as [(v & Hv & ->)|[_ ->]]; [|done].
  destruct (overlay_lookup _ _ _ k H1) as [(w & Hw & ->)|[Hn _]].
  - f_equal. by eapply names_entry_unique.
  - destruct Hv as (l1 & x & l2 & -> & He & _). destruct (Hn x v); [set_solver|done].
Qed.
Lemma load_string_twice l a l1 ok : load_string l a = (l1, ok) -> load_string l1 a = (l1, ok).
Proof.
  unfold load_string. destruct (scan_lines a) as [ls ok']. intros [= <- <-]. by rewrite fold_twice.
Qed.

(** ** Carriage returns *)
Lemma cr_space : [cr] ∈ spaces.
Proof. apply (bool_decide_unpack _). by vm_compute. Qed.
Lemma space_ends_cr w x : w ∈ spaces -> w = x ++ [cr] -> x = [].
Proof.
  intros Hw ->. assert (H : forallb (fun w => match reverse w with c :: r => if ascii_dec c cr then match r with [] => true | _ => false end else true | [] => true end) spaces = true) by (by vm_compute).
  rewrite forallb_forall in H. specialize (H _ (proj1 (elem_of_list_In _ _) Hw)). cbv beta in H. rewrite reverse_app in H. simpl in H. destruct (reverse x) as [|c r] eqn:E; [|done].
  rewrite <- (reverse_involutive x), E. done.
Qed.
Lemma trimmed_cr b v : trimmed b v -> trimmed (b ++ [cr]) v.
Proof.
  intros (pre & post & Hpre & Hpost & -> & Hs & He). destruct (decide (v = [])) as [->|Hv].
  - exists ((pre ++ post) ++ [cr]), []. split_and!; try done.
    + apply blank_app; [by apply blank_app|]. apply blank_one, cr_space.
    + constructor.
    + simpl. by rewrite app_nil_r.
    + simpl. intros (w & r & Hw & E). symmetry in E. apply app_eq_nil in E as [-> _]. by apply (proj1 (Forall_forall _ _) spaces_nonempty) in Hw.
  - exists pre, (post ++ [cr]). split_and!; try done.
    + apply blank_app; [done|]. apply blank_one, cr_space.
    + by rewrite <- !app_assoc.
    + intros (w & r & Hw & E). rewrite app_assoc in E. destruct r as [|c r _] using rev_ind.
      * rewrite app_nil_r in E. assert (v ++ post = []) as Hn by (by eapply space_ends_cr). by apply app_eq_nil in Hn as [-> _].
      * rewrite app_assoc in E. apply app_inj_tail in E as [E _]. apply Hs. by exists w, r.
Qed.
Lemma trim_cr b : trim_space (b ++ [cr]) = trim_space b.
Proof. apply trim_space_spec, trimmed_cr, trim_space_trimmed. Qed.
Lemma load_line_cr l x : load_line l (x ++ [cr]) = load_line l x.
Proof.
  destruct x as [|c x]; [done|]. change ((c :: x) ++ [cr]) with (c :: (x ++ [cr])). unfold load_line.
  destruct (cut_at (byte 61) (c :: x)) as [[a b]|] eqn:E.
  - apply cut_at_some in E as [E Ha].
    assert (cut_at (byte 61) (c :: x ++ [cr]) = Some (a, b ++ [cr])) as ->.
    { apply cut_at_some. split; [|done]. change (c :: x ++ [cr]) with ((c :: x) ++ [cr]). rewrite E. by rewrite <- app_assoc. }
    by rewrite trim_cr.
  - apply cut_at_none in E. assert (cut_at (byte 61) (c :: x ++ [cr]) = None) as ->; [|done].
    apply cut_at_none. change (c :: x ++ [cr]) with ((c :: x) ++ [cr]). rewrite elem_of_app. intros [?|H]; [done|].
    apply elem_of_list_singleton in H. discriminate H.
Qed.
Lemma load_line_drop l x : load_line l (drop_cr x) = load_line l x.
Proof. destruct (drop_cr_chomp x) as [E|[E _]]; [rewrite E at 2; by rewrite load_line_cr|by rewrite <- E]. Qed.
Lemma fold_drop ls l : fold_left load_line (map drop_cr ls) l = fold_left load_line ls l.
Proof. revert l. induction ls as [|x ls IH]; intros l; simpl; [done|]. by rewrite load_line_drop, IH. Qed.
Lemma load_short l raws data : raw_lines data raws -> Forall short raws -> load_string l data = (fold_left load_line raws l, true).
Proof.
  intros Hr Hs. unfold load_string, scan_lines. apply raw_lines_split in Hr. rewrite Hr, deliver_short by done. by rewrite fold_drop.
Qed.
Lemma crlf_app a b : crlf (a ++ b) = crlf a ++ crlf b.
Proof. unfold crlf. by rewrite map_app, concat_app. Qed.
Lemma crlf_line x : lf ∉ x -> crlf x = x.
Proof.
  induction x as [|c x IH]; [done|]. intros H. change (c :: x) with ([c] ++ x). rewrite crlf_app, IH by set_solver. unfold crlf. simpl.
  rewrite decide_False by set_solver. done.
Qed.
Lemma cr_not_lf : cr <> lf. Proof. discriminate. Qed.
Lemma raw_crlf data raws : raw_lines data raws -> exists raws', raw_lines (crlf data) raws' /\ Forall2 (fun x y => y = x \/ y = x ++ [cr]) raws raws'.
Proof.
  induction 1 as [|l Hl Hn|l rest ls Hn _ (raws' & Hr & HF)].
  - exists []. split; constructor.
  - exists [l]. rewrite crlf_line by done. split; [by constructor|]. constructor; [by left|constructor].
  - exists ((l ++ [cr]) :: raws'). split; [|constructor; [by right|done]].
    change (l ++ lf :: rest) with (l ++ [lf] ++ rest). rewrite !crlf_app, crlf_line by done. change (crlf [lf]) with ([cr] ++ [lf]).
    rewrite <- app_assoc, app_assoc. simpl. constructor; [|done]. rewrite elem_of_app, elem_of_list_singleton. intros [?|?]; [done|]. by apply cr_not_lf.
Qed.
Lemma load_crlf l data raws : raw_lines data raws -> Forall (fun x => short (x ++ [cr])) raws -> load_string l (crlf data) = load_string l data.
Proof.
  intros Hr Hs. destruct (raw_crlf _ _ Hr) as (raws' & Hr' & HF).
  assert (Hs1 : Forall short raws). { eapply Forall_impl; [exact Hs|]. unfold short. intros x. rewrite app_length. simpl. lia. }
  rewrite (load_short l raws data Hr Hs1). rewrite (load_short l raws' _ Hr').
  2:{ clear -HF Hs Hs1. induction HF as [|x y xs ys Hxy HF IH]; [constructor|]. inversion Hs; inversion Hs1; subst. constructor; [by destruct Hxy as [->| ->]|by apply IH]. }
  f_equal. clear -HF. revert l. induction HF as [|x y xs ys Hxy HF IH]; intros l; simpl; [done|]. rewrite IH. f_equal.
  destruct Hxy as [->| ->]; [done|by rewrite load_line_cr].
Qed.

(** ** Order of the lines *)
Lemma raw_lines_text ls : Forall (fun x => lf ∉ x) ls -> raw_lines (lines_text ls) ls.
Proof.
  induction 1 as [|x ls Hx _ IH]; [constructor|]. unfold lines_text. simpl. fold (lines_text ls).
  rewrite <- app_assoc. simpl. by constructor.
Qed.
Lemma names_entry_elem ls k v : names_entry ls k v -> exists x, x ∈ ls /\ entry_line x k v.
Proof. intros (l1 & x & l2 & -> & He & _). exists x. split; [set_solver|done]. Qed.
Lemma fold_perm l ls ls' : ls ≡ₚ ls' -> (forall x y k v w, x ∈ ls -> y ∈ ls -> entry_line x k v -> entry_line y k w -> v = w) ->
  fold_left load_line ls l = fold_left load_line ls' l.
Proof.
  intros Hp Hd. destruct (load_lines_overlay l ls) as (H1 & H2 & H3 & H4). destruct (load_lines_overlay l ls') as (K1 & K2 & K3 & K4).
  apply lang_eq; try congruence. apply map_eq. intros k.
  destruct (overlay_lookup _ _ _ k H1) as [(v & (x & Hx & He)%names_entry_elem & ->)|[Hn ->]];
    destruct (overlay_lookup _ _ _ k K1) as [(w & (y & Hy & Hf)%names_entry_elem & ->)|[Kn ->]]; [| | |done].
  - f_equal. eapply Hd; [exact Hx| |exact He|exact Hf]. by rewrite Hp.
  - exfalso. eapply (Kn x v); [by rewrite <- Hp|done].
  - exfalso. eapply (Hn y w); [by rewrite Hp|done].
Qed.
Lemma load_perm l ls ls' : ls ≡ₚ ls' -> Forall (fun x => lf ∉ x /\ short x) ls ->
  (forall x y k v w, x ∈ ls -> y ∈ ls -> entry_line x k v -> entry_line y k w -> v = w) ->
  load_string l (lines_text ls) = load_string l (lines_text ls').
Proof.
  intros Hp Hok Hd. assert (Hok' : Forall (fun x => lf ∉ x /\ short x) ls') by (by rewrite <- Hp).
  rewrite (load_short l ls), (load_short l ls').
  - f_equal. by apply fold_perm.
  - apply raw_lines_text. eapply Forall_impl; [exact Hok'|]. by intros x [].
  - eapply Forall_impl; [exact Hok'|]. by intros x [].
  - apply raw_lines_text. eapply Forall_impl; [exact Hok|]. by intros x [].
  - eapply Forall_impl; [exact Hok|]. by intros x [].
Qed.
