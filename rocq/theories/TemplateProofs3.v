(** * The second pass of the compiler: boxes. *)
From Verif Require Import GoBase GoStrings GoStringsProofs Regex DatasetModel TemplateModel TemplateSpec TemplateProofs TemplateProofs2.

(** ** Names *)
Lemma split_on_app_sep c a s : split_on c (a ++ c :: s) = split_on c a ++ split_on c s.
Proof.
  induction a as [|x a IH]; simpl.
  - by destruct (ascii_dec c c).
  - destruct (ascii_dec x c); rewrite IH; [done|]. pose proof (split_on_nonempty c a). by destruct (split_on c a).
Qed.
Lemma join_app c l1 x l2 : join [c] (l1 ++ x :: l2) =
  match l1 with [] => [] | _ => join [c] l1 ++ [c] end ++ x ++ match l2 with [] => [] | _ => [c] ++ join [c] l2 end.
Proof.
  induction l1 as [|y l1 IH].
  - destruct l2; [|done]. simpl. by rewrite app_nil_r.
  - destruct l1 as [|z l1].
    + destruct l2; simpl; rewrite <- ?app_assoc; [|done]. by rewrite ?app_nil_r.
    + change (join [c] ((y :: z :: l1) ++ x :: l2)) with (y ++ [c] ++ join [c] ((z :: l1) ++ x :: l2)).
      change (join [c] (y :: z :: l1)) with (y ++ [c] ++ join [c] (z :: l1)). rewrite IH, <- !app_assoc. done.
Qed.
Lemma elem_split c s x : x ∈ split_on c s <-> c ∉ x /\
  exists a b, s = a ++ x ++ b /\ (a = [] \/ exists a', a = a' ++ [c]) /\ (b = [] \/ exists b', b = [c] ++ b').
Proof.
  split.
  - intros Hx. split; [by eapply Forall_forall in Hx; [|apply split_on_pieces]|].
    apply elem_of_list_split in Hx as (l1 & l2 & E). rewrite <- (join_split c s), E, join_app.
    eexists _, _. split; [reflexivity|]. split; [destruct l1; eauto|destruct l2; eauto].
  - intros (Hc & a & b & -> & Ha & Hb).
    assert (H : x ∈ split_on c (x ++ b)).
    { destruct Hb as [->|[b' ->]]; [rewrite app_nil_r, split_on_none by done; by left|].
      change (x ++ [c] ++ b') with (x ++ c :: b'). rewrite split_on_app by done. by left. }
    destruct Ha as [->|[a' ->]]; [done|]. rewrite <- app_assoc. change (a' ++ [c] ++ x ++ b) with (a' ++ c :: (x ++ b)).
    rewrite split_on_app_sep. apply elem_of_app. by right.
Qed.
Lemma part_split nm n : part nm n <-> n <> [] /\ n ∈ split_on "|"%char nm.
Proof. unfold part. rewrite elem_split. change (B "|") with ["|"%char]. tauto. Qed.

(** ** Registration *)
Definition set_father (t : loc) (X : tmpl) : tmpl := Tmpl (t_name X) (t_root X) (t_subs X) (Some t).
Definition add_names (x : loc) (l : list bytes) (m : option (gmap bytes loc)) : option (gmap bytes loc) :=
  fold_left (fun m v => match v with [] => m | _ => Some (<[v := x]> (match m with Some m => m | None => ∅ end)) end) l m.
Lemma add_template_lookup th up n x U X : th !! up = Some U -> th !! x = Some X -> up <> x ->
  add_template th up n x = <[up := Tmpl (t_name U) (t_root U) (Some (<[n := x]> (subs_of U))) (t_father U)]> (<[x := set_father up X]> th).
Proof.
  intros HU HX Hne. unfold add_template. rewrite HU.
  apply map_eq. intros y. destruct (decide (y = up)) as [->|Hy].
  - rewrite lookup_alter, lookup_alter_ne, HU, lookup_insert by done. done.
  - rewrite lookup_alter_ne, lookup_insert_ne by done. destruct (decide (y = x)) as [->|Hyx].
    + by rewrite lookup_alter, HX, lookup_insert.
    + by rewrite lookup_alter_ne, lookup_insert_ne.
Qed.
Lemma add_names_spec x l m n : (add_names x l m ≫= lookup n) = if decide (n <> [] /\ n ∈ l) then Some x else m ≫= lookup n.
Proof.
  revert m. induction l as [|v l IH]; intros m; simpl.
  - destruct (decide _) as [[_ H]|]; [by apply elem_of_nil in H|done].
  - rewrite IH. destruct (decide (n <> [] /\ n ∈ l)) as [[H1 H2]|H].
    + case_decide as H'; [done|]. exfalso. apply H'. split; [done|]. by right.
    + destruct v as [|c v].
      * case_decide as H0; [|reflexivity]. destruct H0 as [H1 H2]. exfalso. apply elem_of_cons in H2 as [->|H2]; tauto.
      * destruct (decide (n = c :: v)) as [->|Hn].
        -- rewrite decide_True by (split; [done|by left]). simpl. by rewrite lookup_insert.
        -- simpl. rewrite lookup_insert_ne by done.
           case_decide as H0.
           ++ destruct H0 as [H1 H2]. exfalso. apply elem_of_cons in H2 as [->|H2]; tauto.
           ++ destruct m; done.
Qed.
Definition named (l : list bytes) : bool := existsb (fun v => match v with [] => false | _ => true end) l.
Lemma named_spec l : named l = true <-> exists n, n <> [] /\ n ∈ l.
Proof.
  unfold named. rewrite existsb_exists. split.
  - intros (n & Hn & Hb). exists n. split; [by destruct n|]. by apply elem_of_list_In.
  - intros (n & Hn & Hb). exists n. split; [by apply elem_of_list_In|by destruct n].
Qed.
Lemma register_fold th up x l U X : th !! up = Some U -> th !! x = Some X -> up <> x ->
  fold_left (fun th v => match v with [] => th | _ => add_template th up v x end) l th =
  <[up := Tmpl (t_name U) (t_root U) (add_names x l (t_subs U)) (t_father U)]>
    (<[x := if named l then set_father up X else X]> th).
Proof.
  revert th U X. induction l as [|v l IH]; intros th U X HU HX Hne; cbn [fold_left add_names].
  - rewrite (insert_id th x) by done. rewrite insert_id; [done|]. simpl. rewrite HU. by destruct U.
  - destruct v as [|c v].
    + by rewrite (IH th U X).
    + rewrite (add_template_lookup th up (c :: v) x U X) by done.
      rewrite (IH _ (Tmpl (t_name U) (t_root U) (Some (<[c :: v := x]> (subs_of U))) (t_father U)) (set_father up X));
        [|by rewrite lookup_insert|rewrite lookup_insert_ne by done; by rewrite lookup_insert|done].
      cbn [t_name t_root t_father t_subs]. change (named ((c :: v) :: l)) with true. cbn [negb].
      replace (if named l then set_father up (set_father up X) else set_father up X) with (set_father up X)
        by (by destruct (named l)).
      apply map_eq. intros y. destruct (decide (y = up)) as [->|Hy].
      * rewrite !lookup_insert. f_equal.
      * rewrite !(lookup_insert_ne _ up) by done. destruct (decide (y = x)) as [->|Hyx].
        -- by rewrite !lookup_insert.
        -- rewrite !(lookup_insert_ne _ x), (lookup_insert_ne _ up), (lookup_insert_ne _ x) by done. done.
Qed.
Lemma register_lookup th up nm x U X : th !! up = Some U -> th !! x = Some X -> up <> x -> nm <> [] ->
  exists fa, register th up nm x =
  <[up := Tmpl (t_name U) (t_root U) (add_names x (split_on "|"%char nm) (t_subs U)) (t_father U)]>
    (<[x := Tmpl (t_name X) (t_root X) (t_subs X) fa]> th) /\ ((exists n, part nm n) -> fa = Some up).
Proof.
  intros HU HX Hne Hnm. unfold register. case_bool_decide as Hb.
  - rewrite (register_fold th up x (split_on "|"%char nm) U X) by done.
    destruct (named (split_on "|"%char nm)) eqn:H.
    + exists (Some up). done.
    + exists (t_father X). split; [by destruct X|]. intros (n & Hn). exfalso.
      assert (named (split_on "|"%char nm) = true); [|congruence]. apply named_spec. exists n. by apply part_split.
  - exists (Some up). split; [|done]. rewrite (add_template_lookup th up nm x U X) by done.
    rewrite split_on_none by done. cbn [add_names fold_left]. destruct nm as [|c nm]; [done|]. done.
Qed.
Lemma registers_nil old : registers old [] (Some old).
Proof. intros n. split; [|done]. intros x (a & nm & body & b & E & _). by destruct a. Qed.
Lemma registers_leaf old is m t : registers old is m -> registers old (is ++ [Leaf t]) m.
Proof.
  intros H n. assert (Hd : forall x, defines (is ++ [Leaf t]) n x <-> defines is n x).
  { intros x. split.
    - intros (a & nm & body & b & E & Hp & Hb). destruct b as [|i b _] using rev_ind.
      + apply app_inj_tail in E as [_ E]. discriminate.
      + change (a ++ Box x nm body :: b ++ [i]) with (a ++ (Box x nm body :: b) ++ [i]) in E. rewrite app_assoc in E.
        apply app_inj_tail in E as [-> <-]. exists a, nm, body, b. split; [done|]. split; [done|].
        intros x' nm' body' H'. apply (Hb x' nm' body'). apply elem_of_app. by left.
    - intros (a & nm & body & b & -> & Hp & Hb). exists a, nm, body, (b ++ [Leaf t]). split; [by rewrite <- app_assoc|].
      split; [done|]. intros x' nm' body' [H'|H']%elem_of_app; [by eapply Hb|]. apply elem_of_list_singleton in H'. done. }
  destruct (H n) as [H1 H2]. split; [intros x Hx; apply H1, Hd, Hx|].
  intros Hx. apply H2. intros x Hx'. by apply (Hx x), Hd.
Qed.
Lemma registers_box old is m x nm body : registers old is m ->
  registers old (is ++ [Box x nm body]) (add_names x (split_on "|"%char nm) m).
Proof.
  intros H n. rewrite add_names_spec. destruct (H n) as [H1 H2].
  case_decide as Hp; rewrite <- part_split in Hp.
  - split.
    + intros y (a & nm' & body' & b & E & Hp' & Hb). destruct b as [|i b _] using rev_ind.
      * apply app_inj_tail in E as [_ [= -> -> ->]]. done.
      * change (a ++ Box y nm' body' :: b ++ [i]) with (a ++ (Box y nm' body' :: b) ++ [i]) in E. rewrite app_assoc in E.
        apply app_inj_tail in E as [_ <-]. exfalso. apply (Hb x nm body); [|done]. apply elem_of_app. right. by left.
    + intros Hx. exfalso. apply (Hx x). exists is, nm, body, []. split; [done|]. split; [done|]. intros ? ? ? H'. by apply elem_of_nil in H'.
  - assert (Hd : forall y, defines (is ++ [Box x nm body]) n y <-> defines is n y).
    { intros y. split.
      - intros (a & nm' & body' & b & E & Hp' & Hb). destruct b as [|i b _] using rev_ind.
        + apply app_inj_tail in E as [_ [= -> -> ->]]. done.
        + change (a ++ Box y nm' body' :: b ++ [i]) with (a ++ (Box y nm' body' :: b) ++ [i]) in E. rewrite app_assoc in E.
          apply app_inj_tail in E as [-> <-]. exists a, nm', body', b. split; [done|]. split; [done|].
          intros x2 nm2 body2 H'. apply (Hb x2 nm2 body2). apply elem_of_app. by left.
      - intros (a & nm' & body' & b & -> & Hp' & Hb). exists a, nm', body', (b ++ [Box x nm body]). split; [by rewrite <- app_assoc|].
        split; [done|]. intros x2 nm2 body2 [H'|H']%elem_of_app; [by eapply Hb|].
        apply elem_of_list_singleton in H' as [= -> -> ->]. done. }
    split; [intros y Hy; apply H1, Hd, Hy|]. intros Hy. apply H2. intros y Hy'. by apply (Hy y), Hd.
Qed.
