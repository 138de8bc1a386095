(** * Proofs about XLanguage. *)
From Verif Require Import GoBase GoStrings GoStringsProofs LangModel LangSpec.
From Coq Require Import Lia.

(** ** The table as a map (C39) *)
Section Table.
  Context (parse_tag : bytes -> bytes) (decode : bytes -> option xdoc) (quote : bytes -> bytes).
  Notation lstep := (lstep parse_tag decode quote).
  Notation lrun := (lrun parse_tag decode quote).

  Lemma lrun_snoc l ops o : (lrun l (ops ++ [o])).1 = (lstep (lrun l ops).1 o).1.
  Proof.
    revert l. induction ops as [|o' ops IH]; intros l; simpl.
    - by destruct (lstep l o).
    - destruct (lstep l o') as [l1 r]. specialize (IH l1). destruct (lrun l1 (ops ++ [o])), (lrun l1 ops). done.
  Qed.

  Lemma lstep_entry l o k :
    table_op o -> l_entries (lstep l o).1 !! k =
      match o with
      | LSet k' v => if decide (k' = k) then Some v else l_entries l !! k
      | LDel k' => if decide (k' = k) then None else l_entries l !! k
      | _ => l_entries l !! k
      end.
  Proof.
    intros Ho. destruct o; simpl; try done.
    - destruct (decide (k0 = k)) as [->|]; [by rewrite lookup_insert|by rewrite lookup_insert_ne].
    - destruct (decide (k0 = k)) as [->|]; [by rewrite lookup_delete|by rewrite lookup_delete_ne].
  Qed.
  Lemma lstep_status l o k :
    table_op o -> l_status (lstep l o).1 !! k =
      match o with
      | LSetStatus k' v => if decide (k' = k) then Some v else l_status l !! k
      | LDel k' => if decide (k' = k) then None else l_status l !! k
      | _ => l_status l !! k
      end.
  Proof.
    intros Ho. destruct o; simpl; try done.
    - destruct (decide (k0 = k)) as [->|]; [by rewrite lookup_insert|by rewrite lookup_insert_ne].
    - destruct (decide (k0 = k)) as [->|]; [by rewrite lookup_delete|by rewrite lookup_delete_ne].
  Qed.

  Lemma lrun_entry n t ops k :
    Forall table_op ops ->
    match l_entries (lrun (new_lang n t) ops).1 !! k with
    | Some v => last_entry k v ops
    | None => no_entry k ops
    end.
  Proof.
    induction ops as [|o ops IH] using rev_ind; intros Hf; [by left|].
    apply Forall_app in Hf as [Hf Ho]. rewrite Forall_singleton in Ho. specialize (IH Hf).
    rewrite lrun_snoc, lstep_entry by done.
    assert (Hkeep : ~ sets_entry k o -> match l_entries (lrun (new_lang n t) ops).1 !! k with
       | Some v => last_entry k v (ops ++ [o]) | None => no_entry k (ops ++ [o]) end).
    { intros Hn. destruct (l_entries _ !! k) as [v|].
      - destruct IH as (h1 & h2 & -> & Hh). exists h1, (h2 ++ [o]). rewrite <- app_assoc. split; [done|].
        apply Forall_app. by rewrite Forall_singleton.
      - destruct IH as [Hh|(h1 & h2 & -> & Hh)].
        + left. apply Forall_app. by rewrite Forall_singleton.
        + right. exists h1, (h2 ++ [o]). rewrite <- app_assoc. split; [done|]. apply Forall_app. by rewrite Forall_singleton. }
    destruct o as [k1 v1| | | |k1| | | | | | | | | |]; try (apply Hkeep; by intros []).
    - destruct (decide (k1 = k)) as [->|Hne]; [|by apply Hkeep]. by exists ops, [].
    - destruct (decide (k1 = k)) as [->|Hne]; [|by apply Hkeep]. right. by exists ops, [].
  Qed.
  Lemma lrun_status n t ops k :
    Forall table_op ops ->
    match l_status (lrun (new_lang n t) ops).1 !! k with
    | Some v => last_status k v ops
    | None => no_status k ops
    end.
  Proof.
    induction ops as [|o ops IH] using rev_ind; intros Hf; [by left|].
    apply Forall_app in Hf as [Hf Ho]. rewrite Forall_singleton in Ho. specialize (IH Hf).
    rewrite lrun_snoc, lstep_status by done.
    assert (Hkeep : ~ sets_status k o -> match l_status (lrun (new_lang n t) ops).1 !! k with
       | Some v => last_status k v (ops ++ [o]) | None => no_status k (ops ++ [o]) end).
    { intros Hn. destruct (l_status _ !! k) as [v|].
      - destruct IH as (h1 & h2 & -> & Hh). exists h1, (h2 ++ [o]). rewrite <- app_assoc. split; [done|].
        apply Forall_app. by rewrite Forall_singleton.
      - destruct IH as [Hh|(h1 & h2 & -> & Hh)].
        + left. apply Forall_app. by rewrite Forall_singleton.
        + right. exists h1, (h2 ++ [o]). rewrite <- app_assoc. split; [done|]. apply Forall_app. by rewrite Forall_singleton. }
    destruct o as [| |k1 v1| |k1| | | | | | | | | |]; try (apply Hkeep; by intros []).
    - destruct (decide (k1 = k)) as [->|Hne]; [|by apply Hkeep]. by exists ops, [].
    - destruct (decide (k1 = k)) as [->|Hne]; [|by apply Hkeep]. right. by exists ops, [].
  Qed.

  (** Positions of the last write determine the value. *)
  Lemma last_write_unique (P : lop -> Prop) (o1 o2 : lop) h1 h2 h1' h2' :
    h1 ++ o1 :: h2 = h1' ++ o2 :: h2' -> P o1 -> P o2 ->
    Forall (fun o => ~ P o) h2 -> Forall (fun o => ~ P o) h2' -> o1 = o2.
  Proof.
    intros He P1 P2 F1 F2. apply app_eq_inv in He as [(k & Hk1 & Hk2)|(k & Hk1 & Hk2)].
    - destruct k as [|x k]; simpl in Hk2; simplify_eq; [done|]. apply Forall_app in F2 as [_ F2].
      apply Forall_cons in F2 as [F2 _]. done.
    - destruct k as [|x k]; simpl in Hk2; simplify_eq; [done|]. apply Forall_app in F1 as [_ F1].
      apply Forall_cons in F1 as [F1 _]. done.
  Qed.
  Lemma no_write (P : lop -> Prop) (o : lop) h h1 h2 : h = h1 ++ o :: h2 -> Forall (fun o => ~ P o) h -> ~ P o.
  Proof. intros -> Hf. apply Forall_app in Hf as [_ Hf]. by apply Forall_cons in Hf as [? _]. Qed.

  Lemma get_last n t ops k :
    Forall table_op ops ->
    let r := (lstep (lrun (new_lang n t) ops).1 (LGet k)).2 in
    (forall v, last_entry k v ops -> r = LText v) /\ (no_entry k ops -> r = LText []).
  Proof.
    intros Hf. simpl. unfold lget. pose proof (lrun_entry n t ops k Hf) as He.
    destruct (l_entries _ !! k) as [v|]; split.
    - intros v' (h1 & h2 & -> & Hh). destruct He as (h1' & h2' & He & Hh').
      assert (LSet k v' = LSet k v) by (eapply (last_write_unique (sets_entry k)); done). by simplify_eq.
    - intros Hn. destruct He as (h1 & h2 & -> & Hh). destruct Hn as [Hn|(h1' & h2' & He & Hh')].
      + by destruct (no_write (sets_entry k) _ _ _ _ eq_refl Hn eq_refl).
      + assert (LSet k v = LDel k) by (by eapply (last_write_unique (sets_entry k))). done.
    - intros v' (h1 & h2 & -> & Hh). destruct He as [Hn|(h1' & h2' & He & Hh')].
      + by destruct (no_write (sets_entry k) _ _ _ _ eq_refl Hn eq_refl).
      + assert (LSet k v' = LDel k) by (by eapply (last_write_unique (sets_entry k))). done.
    - done.
  Qed.
  Lemma get_status_last n t ops k :
    Forall table_op ops ->
    let r := (lstep (lrun (new_lang n t) ops).1 (LGetStatus k)).2 in
    (forall v, last_status k v ops -> r = LText v) /\ (no_status k ops -> r = LText []).
  Proof.
    intros Hf. simpl. unfold lget_status. pose proof (lrun_status n t ops k Hf) as He.
    destruct (l_status _ !! k) as [v|]; split.
    - intros v' (h1 & h2 & -> & Hh). destruct He as (h1' & h2' & He & Hh').
      assert (LSetStatus k v' = LSetStatus k v) by (eapply (last_write_unique (sets_status k)); done). by simplify_eq.
    - intros Hn. destruct He as (h1 & h2 & -> & Hh). destruct Hn as [Hn|(h1' & h2' & He & Hh')].
      + by destruct (no_write (sets_status k) _ _ _ _ eq_refl Hn eq_refl).
      + assert (LSetStatus k v = LDel k) by (by eapply (last_write_unique (sets_status k))). done.
    - intros v' (h1 & h2 & -> & Hh). destruct He as [Hn|(h1' & h2' & He & Hh')].
      + by destruct (no_write (sets_status k) _ _ _ _ eq_refl Hn eq_refl).
      + assert (LSetStatus k v' = LDel k) by (by eapply (last_write_unique (sets_status k))). done.
    - done.
  Qed.

  Lemma load_lines_fields ls l : l_name (fold_left load_line ls l) = l_name l /\ l_tag (fold_left load_line ls l) = l_tag l.
  Proof.
    revert l. induction ls as [|x ls IH]; intros l; [done|]. simpl. destruct (IH (load_line l x)) as [-> ->].
    unfold load_line. destruct x; [done|]. destruct (cut_at _ _) as [[x1 x2]|]; [|done]. case_bool_decide; [done|].
    by destruct (trim_space x1).
  Qed.
  Lemma step_name l o : ~ loads_xml o -> ~ names o -> l_name (lstep l o).1 = l_name l.
  Proof.
    intros H1 H2. destruct o; simpl in *; try done. unfold load_string. destruct (scan_lines data) as [ls ok]. simpl. apply load_lines_fields.
  Qed.
  Lemma step_tag l o : ~ loads_xml o -> ~ tags o -> l_tag (lstep l o).1 = l_tag l.
  Proof.
    intros H1 H2. destruct o; simpl in *; try done. unfold load_string. destruct (scan_lines data) as [ls ok]. simpl. apply load_lines_fields.
  Qed.
  Lemma lrun_cat l h1 h2 : (lrun l (h1 ++ h2)).1 = (lrun (lrun l h1).1 h2).1.
  Proof.
    revert l. induction h1 as [|o h1 IH]; intros l; [done|]. simpl. destruct (lstep l o) as [l1 r]. specialize (IH l1).
    destruct (lrun l1 (h1 ++ h2)), (lrun l1 h1). done.
  Qed.
  Lemma lrun_cons l o h : (lrun l (o :: h)).1 = (lrun (lstep l o).1 h).1.
  Proof. simpl. destruct (lstep l o) as [l1 r]. simpl. by destruct (lrun l1 h). Qed.
  Lemma run_name l h : Forall (fun o => ~ loads_xml o) h -> Forall (fun o => ~ names o) h -> l_name (lrun l h).1 = l_name l.
  Proof.
    revert l. induction h as [|o h IH]; intros l H1 H2; [done|]. inversion H1; inversion H2; subst. rewrite lrun_cons, IH by done. by apply step_name.
  Qed.
  Lemma run_tag l h : Forall (fun o => ~ loads_xml o) h -> Forall (fun o => ~ tags o) h -> l_tag (lrun l h).1 = l_tag l.
  Proof.
    revert l. induction h as [|o h IH]; intros l H1 H2; [done|]. inversion H1; inversion H2; subst. rewrite lrun_cons, IH by done. by apply step_tag.
  Qed.
  Lemma name_last n t ops : Forall (fun o => ~ loads_xml o) ops ->
    let r := (lstep (lrun (new_lang n t) ops).1 LGetName).2 in
    (forall n', last_name n' ops -> r = LText n') /\ (Forall (fun o => ~ names o) ops -> r = LText n).
  Proof.
    intros Hf. simpl. split.
    - intros n' (h1 & h2 & -> & Hh). apply Forall_app in Hf as [_ Hf]. inversion Hf; subst. f_equal.
      rewrite lrun_cat, lrun_cons, run_name by done. done.
    - intros Hn. f_equal. by rewrite run_name.
  Qed.
  Lemma tag_last n t ops : Forall (fun o => ~ loads_xml o) ops ->
    let r := (lstep (lrun (new_lang n t) ops).1 LGetLanguage).2 in
    (forall t', last_tag t' ops -> r = LText t') /\ (Forall (fun o => ~ tags o) ops -> r = LText t).
  Proof.
    intros Hf. simpl. split.
    - intros n' (h1 & h2 & -> & Hh). apply Forall_app in Hf as [_ Hf]. inversion Hf; subst. f_equal.
      rewrite lrun_cat, lrun_cons, run_tag by done. done.
    - intros Hn. f_equal. by rewrite run_tag.
  Qed.

  Lemma fold_insert_lookup (order : list (bytes * bytes)) (m : table) (k : bytes) :
    NoDup order.*1 ->
    fold_left (fun m kv => <[kv.1 := kv.2]> m) order m !! k =
      match (list_to_map order : table) !! k with Some v => Some v | None => m !! k end.
  Proof.
    revert m. induction order as [|[k' v'] order IH]; intros m Hn; cbn [fold_left list_to_map foldr fst snd].
    { simpl. by rewrite lookup_empty. }
    cbn [fmap list_fmap fst] in Hn. apply NoDup_cons in Hn as [Hn1 Hn2]. rewrite IH by done. simpl. destruct (decide (k' = k)) as [->|Hne].
    - rewrite lookup_insert. rewrite (not_elem_of_list_to_map_1 order k) by done. by rewrite lookup_insert.
    - rewrite lookup_insert_ne by done. by rewrite (lookup_insert_ne _ k' k) by done.
  Qed.
  Lemma order_nodup (m : table) order : order_of m order -> NoDup order.*1.
  Proof. unfold order_of. intros Hp. rewrite Hp. apply NoDup_fst_map_to_list. Qed.
  Lemma order_map (m : table) order : order_of m order -> (list_to_map order : table) = m.
  Proof.
    intros Hp. rewrite <- (list_to_map_to_list m). apply list_to_map_proper; [by eapply order_nodup|done].
  Qed.
  Lemma entries_copy (m : table) order : order_of m order -> lget_entries order = m.
  Proof.
    intros Ho. apply map_eq. intros k. unfold lget_entries. rewrite fold_insert_lookup by (by eapply order_nodup).
    rewrite (order_map m) by done. rewrite lookup_empty. by destruct (m !! k).
  Qed.
  Lemma get_entries_exact n t ops order k v :
    Forall table_op ops -> order_of (l_entries (lrun (new_lang n t) ops).1) order ->
    (lget_entries order !! k = Some v <-> last_entry k v ops).
  Proof.
    intros Hf Ho. rewrite (entries_copy _ _ Ho). pose proof (lrun_entry n t ops k Hf) as He.
    pose proof (get_last n t ops k Hf) as [Hg _]. simpl in Hg. unfold lget in Hg.
    destruct (l_entries _ !! k) as [v'|]; split.
    - by intros [= ->].
    - intros Hl. apply Hg in Hl. by simplify_eq.
    - done.
    - intros (h1 & h2 & -> & Hh). destruct He as [Hn|(h1' & h2' & He & Hh')].
      + by destruct (no_write (sets_entry k) _ _ _ _ eq_refl Hn eq_refl).
      + assert (LSet k v = LDel k) by (by eapply (last_write_unique (sets_entry k))). done.
  Qed.
  Lemma get_entries_all n t ops order :
    Forall table_op ops -> order_of (l_entries (lrun (new_lang n t) ops).1) order ->
    exists m, (lstep (lrun (new_lang n t) ops).1 (LGetEntries order)).2 = LTable m /\
      forall k v, m !! k = Some v <-> last_entry k v ops.
  Proof. intros Hf Ho. eexists. split; [reflexivity|]. intros k v. by eapply get_entries_exact. Qed.
End Table.

(** ** Lines (C40, C42) *)
Lemma drop_last_empty_cons l ls : ls <> [] -> drop_last_empty (l :: ls) = l :: drop_last_empty ls.
Proof. destruct ls; [done|]. by destruct l. Qed.
Lemma raw_lines_split s ls : raw_lines s ls <-> drop_last_empty (split_on lf s) = ls.
Proof.
  split.
  - induction 1 as [|l Hn Hl|l rest ls Hl Hr IH].
    + done.
    + rewrite split_on_none by done. by destruct l.
    + rewrite split_on_app by done. rewrite drop_last_empty_cons by apply split_on_nonempty. by rewrite IH.
  - intros <-. pose proof (join_split lf s) as Hj. pose proof (split_on_pieces lf s) as Hp.
    pose proof (split_on_nonempty lf s) as Hn. remember (split_on lf s) as ws0 eqn:E0; clear E0. revert s Hj. induction ws0 as [|w ws IH]; intros s Hj; [done|].
    apply Forall_cons in Hp as [Hw Hp]. destruct ws as [|w2 ws].
    + simpl in Hj. subst. destruct s; [constructor|]. by constructor.
    + rewrite drop_last_empty_cons by done. rewrite join_cons in Hj by done. rewrite <- Hj. constructor; [done|].
      by apply IH.
Qed.
Lemma drop_cr_chomp raw : chomp raw (drop_cr raw).
Proof.
  assert ((exists r, raw = r ++ [cr]) \/ ~ (exists r, raw = r ++ [cr])) as [[r ->]|Hn].
  { destruct raw as [|c r _] using rev_ind; [right; intros [[] ?]; done|].
    destruct (decide (c = cr)) as [->|Hc]; [left; by eexists|right]. intros [r' He]. by apply app_inj_tail in He as [_ ?]. }
  - left. by rewrite drop_cr_app.
  - right. rewrite drop_cr_other; [|intros l' ->; apply Hn; by eexists]. split; [done|]. intros r ->. apply Hn. by eexists.
Qed.
Lemma chomp_unique raw l1 l2 : chomp raw l1 -> chomp raw l2 -> l1 = l2.
Proof.
  intros [H1|[H1 N1]] [H2|[H2 N2]]; subst.
  - by apply app_inj_tail in H2 as [-> _].
  - by destruct (N2 l1).
  - by destruct (N1 l2).
  - done.
Qed.
Lemma deliver_short ls : Forall short ls -> deliver ls = (map drop_cr ls, true).
Proof.
  induction 1 as [|l ls Hl Hf IH]; simpl; [done|]. unfold short in Hl. rewrite bool_decide_false by (unfold max_token; lia).
  by rewrite IH.
Qed.
Lemma deliver_long ls l rest : Forall short ls -> ~ short l -> deliver (ls ++ l :: rest) = (map drop_cr ls, false).
Proof.
  intros Hf Hl. induction Hf as [|l' ls Hl' Hf IH]; simpl.
  - unfold short in Hl. by rewrite bool_decide_true by (unfold max_token; lia).
  - unfold short in Hl'. rewrite bool_decide_false by (unfold max_token; lia). by rewrite IH.
Qed.

(** One line. *)
Lemma load_line_spec l line :
  (exists k v, entry_line line k v /\ load_line l line = lset l k v) \/
  ((forall k v, ~ entry_line line k v) /\ load_line l line = l).
Proof.
  destruct line as [|c line].
  { right. split; [|done]. intros k v (_ & _ & a & b & He & _). by destruct a. }
  unfold load_line. destruct (cut_at (byte 61) (c :: line)) as [[a b]|] eqn:E.
  - apply cut_at_some in E as [He Ha].
    destruct (decide (c = byte 35 \/ c = byte 59)) as [Hc|Hc].
    + right. rewrite bool_decide_true by done. split; [|done].
      intros k v (H1 & H2 & _). destruct Hc as [->| ->]; [by destruct (H1 line)|by destruct (H2 line)].
    + rewrite bool_decide_false by done. destruct (trim_space a) as [|x key] eqn:Ek.
      * right. split; [|done]. intros k v (_ & _ & a' & b' & He' & Ha' & Hk & Hk0 & _).
        assert (a' = a) as ->.
        { assert (cut_at (byte 61) (c :: line) = Some (a', b')) as H1 by (by apply cut_at_some).
          assert (cut_at (byte 61) (c :: line) = Some (a, b)) as H2 by (by apply cut_at_some). congruence. }
        apply trim_space_spec in Hk. congruence.
      * left. exists (x :: key), (trim_space b). split; [|done]. split_and!.
        -- intros r [= -> ->]. apply Hc. by left.
        -- intros r [= -> ->]. apply Hc. by right.
        -- exists a, b. split_and!; [done|done|by apply trim_space_spec|done|apply trim_space_trimmed].
  - right. split; [|done]. apply cut_at_none in E. intros k v (_ & _ & a & b & He & _). apply E. rewrite He. set_solver.
Qed.
Lemma load_lines_overlay l lines :
  overlay (l_entries l) lines (l_entries (fold_left load_line lines l)) /\
  l_status (fold_left load_line lines l) = l_status l /\ l_name (fold_left load_line lines l) = l_name l /\
  l_tag (fold_left load_line lines l) = l_tag l.
Proof.
  revert l. induction lines as [|line lines IH]; intros l; simpl; [split; [constructor|done]|].
  destruct (load_line_spec l line) as [(k & v & Hl & ->)|[Hl ->]]; destruct (IH (if decide (1 = 1) then l else l)) as (IH1 & IH2 & IH3 & IH4).
  - destruct (IH (lset l k v)) as (H1 & H2 & H3 & H4). split_and!; try done. by eapply ov_entry.
  - destruct (IH l) as (H1 & H2 & H3 & H4). split_and!; try done. by apply ov_skip.
Qed.
Lemma entry_line_unique line k v k' v' : entry_line line k v -> entry_line line k' v' -> k = k' /\ v = v'.
Proof.
  intros (_ & _ & a & b & He & Ha & Hk & _ & Hv) (_ & _ & a' & b' & He' & Ha' & Hk' & _ & Hv').
  assert (cut_at (byte 61) line = Some (a, b)) as H1 by (by apply cut_at_some).
  assert (cut_at (byte 61) line = Some (a', b')) as H2 by (by apply cut_at_some).
  rewrite H1 in H2. simplify_eq. split; by eapply trimmed_unique.
Qed.
Lemma overlay_unique m ls m1 m2 : overlay m ls m1 -> overlay m ls m2 -> m1 = m2.
Proof.
  intros H. revert m2. induction H as [m|m l k v ls m' Hl Ho IH|m l ls m' Hl Ho IH]; intros m2 H2.
  - by inversion H2.
  - inversion H2 as [|? ? k' v' ? ? Hl' Ho'|? ? ? ? Hl' Ho']; simplify_eq.
    + destruct (entry_line_unique _ _ _ _ _ Hl Hl') as [-> ->]. by apply IH.
    + by destruct (Hl' k v).
  - inversion H2 as [|? ? k' v' ? ? Hl' Ho'|? ? ? ? Hl' Ho']; simplify_eq.
    + by destruct (Hl k' v').
    + by apply IH.
Qed.

Lemma load_string_ok l data raws lines :
  raw_lines data raws -> Forall short raws -> Forall2 chomp raws lines ->
  exists l', load_string l data = (l', true) /\ overlay (l_entries l) lines (l_entries l') /\
    l_status l' = l_status l /\ l_name l' = l_name l /\ l_tag l' = l_tag l.
Proof.
  intros Hr Hs Hc. unfold load_string, scan_lines. apply raw_lines_split in Hr. rewrite Hr, deliver_short by done.
  assert (lines = map drop_cr raws) as ->.
  { clear Hr Hs. induction Hc as [|raw line raws lines Hc _ IH]; simpl; [done|]. rewrite IH. f_equal.
    eapply chomp_unique; [done|]. apply drop_cr_chomp. }
  eexists. split; [done|]. apply load_lines_overlay.
Qed.
Lemma load_string_long l data raws long rest lines :
  raw_lines data (raws ++ long :: rest) -> Forall short raws -> ~ short long -> Forall2 chomp raws lines ->
  exists l', load_string l data = (l', false) /\ overlay (l_entries l) lines (l_entries l') /\
    l_status l' = l_status l /\ new_from_string data = None.
Proof.
  intros Hr Hs Hl Hc. unfold new_from_string, load_string, scan_lines. apply raw_lines_split in Hr. rewrite Hr, deliver_long by done.
  assert (lines = map drop_cr raws) as ->.
  { clear Hr Hs. induction Hc as [|raw line raws lines Hc _ IH]; simpl; [done|]. rewrite IH. f_equal.
    eapply chomp_unique; [done|]. apply drop_cr_chomp. }
  eexists. split; [done|]. destruct (load_lines_overlay l (map drop_cr raws)) as (H1 & H2 & _). done.
Qed.
(** Every text has raw lines, and every raw line has a chomped form. *)
Lemma raw_lines_total data : exists raws, raw_lines data raws.
Proof. eexists. by apply raw_lines_split. Qed.
Lemma chomp_total raws : exists lines, Forall2 chomp raws lines.
Proof. exists (map drop_cr raws). induction raws; constructor; [apply drop_cr_chomp|done]. Qed.

Lemma lines_total data : exists raws lines, raw_lines data raws /\ Forall2 chomp raws lines.
Proof. destruct (raw_lines_total data) as [raws Hr]. destruct (chomp_total raws) as [lines Hc]. by exists raws, lines. Qed.

(** The overlay keeps what it does not mention; the last mention wins. *)
Lemma overlay_keeps m ls m' k :
  overlay m ls m' -> (forall l v, l ∈ ls -> ~ entry_line l k v) -> m' !! k = m !! k.
Proof.
  induction 1 as [m|m l k' v ls m' Hl Ho IH|m l ls m' Hl Ho IH]; intros Hn; [done| |].
  - rewrite IH; [|intros l' v' Hin; apply Hn; by right]. rewrite lookup_insert_ne; [done|].
    intros ->. eapply (Hn l v); [by left|done].
  - apply IH. intros l' v' Hin. apply Hn. by right.
Qed.
Lemma overlay_last m ls1 l ls2 m' k v :
  overlay m (ls1 ++ l :: ls2) m' -> entry_line l k v -> (forall l' v', l' ∈ ls2 -> ~ entry_line l' k v') -> m' !! k = Some v.
Proof.
  intros Ho He Hn. revert m Ho. induction ls1 as [|l1 ls1 IH]; intros m Ho; simpl in Ho.
  - inversion Ho as [|? ? k' v' ? ? Hl' Ho'|? ? ? ? Hl' Ho']; simplify_eq.
    + destruct (entry_line_unique _ _ _ _ _ He Hl') as [-> ->]. rewrite (overlay_keeps _ _ _ _ Ho' Hn). by rewrite lookup_insert.
    + by destruct (Hl' k v).
  - inversion Ho as [|? ? k' v' ? ? Hl' Ho'|? ? ? ? Hl' Ho']; simplify_eq; by eapply IH.
Qed.

(** ** Round trip through the flat format (C41) *)
Lemma flat_raw order : Forall flat_ok order ->
  raw_lines (flat_text order) (map (fun kv => kv.1 ++ byte 61 :: kv.2) order).
Proof.
  induction 1 as [|[k v] order Hok Hf IH]; [constructor|]. unfold flat_text. cbn [map concat fst snd].
  replace ((k ++ byte 61 :: v ++ [lf]) ++ concat (map (fun kv => kv.1 ++ byte 61 :: kv.2 ++ [lf]) order))
    with ((k ++ byte 61 :: v) ++ lf :: flat_text order) by (unfold flat_text; rewrite <- !app_assoc; simpl; rewrite <- !app_assoc; done).
  constructor; [|done]. destruct Hok as (_ & _ & H1 & H2 & _). simpl in *.
  rewrite elem_of_app, elem_of_cons. intros [?|[?|?]]; try done.
Qed.
Lemma flat_chomp kv : flat_ok kv -> chomp (kv.1 ++ byte 61 :: kv.2) (kv.1 ++ byte 61 :: kv.2).
Proof.
  destruct kv as [k v]. intros (_ & _ & _ & _ & _ & _ & _ & _ & _ & Hv & _). simpl in *. right. split; [done|].
  intros r He. destruct v as [|c v] using rev_ind.
  - apply app_inj_tail in He as [_ He]. done.
  - rewrite app_comm_cons, app_assoc in He. apply app_inj_tail in He as [_ ->]. apply Hv.
    exists [cr], v. split; [|done]. by repeat first [left|right].
Qed.
Lemma flat_entry kv : flat_ok kv -> entry_line (kv.1 ++ byte 61 :: kv.2) kv.1 kv.2.
Proof.
  destruct kv as [k v]. intros (Hk0 & Hk & _ & _ & H1 & H2 & Hs & He & Hs2 & He2 & _). simpl in *. split_and!.
  - intros r Hr. destruct k as [|c k]; [done|]. simpl in Hr. simplify_eq. by destruct (H1 k).
  - intros r Hr. destruct k as [|c k]; [done|]. simpl in Hr. simplify_eq. by destruct (H2 k).
  - exists k, v. split_and!; try done.
    + apply trim_space_spec. by apply trim_space_id.
    + apply trim_space_spec. by apply trim_space_id.
Qed.
Lemma flat_overlay order m : Forall flat_ok order ->
  overlay m (map (fun kv => kv.1 ++ byte 61 :: kv.2) order) (fold_left (fun m kv => <[kv.1 := kv.2]> m) order m).
Proof.
  intros Hf. revert m. induction Hf as [|kv order Hok Hf IH]; intros m; simpl; [constructor|].
  eapply ov_entry; [by apply flat_entry|]. apply IH.
Qed.
Lemma flat_round_trip m order :
  order_of m order -> Forall flat_ok order -> 
  new_from_string (flat_text order) = Some (Lang [] [] m ∅).
Proof.
  intros Ho Hf. unfold new_from_string.
  destruct (load_string_ok (Lang [] [] ∅ ∅) (flat_text order) (map (fun kv => kv.1 ++ byte 61 :: kv.2) order)
    (map (fun kv => kv.1 ++ byte 61 :: kv.2) order)) as ([n t e s] & -> & Hov & H1 & H2 & H3).
  - by apply flat_raw.
  - apply Forall_fmap. eapply Forall_impl; [done|]. intros kv Hok. by apply Hok.
  - apply Forall2_fmap_l, Forall2_fmap_r. clear Ho. induction Hf; constructor; [by apply flat_chomp|done].
  - simpl in *. subst. f_equal. f_equal. eapply overlay_unique; [done|].
    rewrite <- (entries_copy m order Ho). by apply flat_overlay.
Qed.

(** ** Printing does not depend on the iteration order (C32) *)
Lemma get_xml_order l o1 o2 : o1 ≡ₚ o2 -> get_xml l o1 = get_xml l o2.
Proof.
  intros Hp. unfold get_xml. rewrite (sort_strings_perm (map (xml_entry l) o1) (map (xml_entry l) o2)); [done|].
  by apply Permutation_map.
Qed.
Lemma lstring_order o1 o2 : o1 ≡ₚ o2 -> lstring o1 = lstring o2.
Proof. intros Hp. unfold lstring. erewrite sort_strings_perm; [done|]. by apply Permutation_map. Qed.
Lemma lgostring_order quote o1 o2 : o1 ≡ₚ o2 -> lgostring quote o1 = lgostring quote o2.
Proof. intros Hp. unfold lgostring. erewrite sort_strings_perm; [done|]. by apply Permutation_map. Qed.

(** ** What counts as white space *)
Lemma spaces_white w : w ∈ spaces <-> exists n, white n /\ w = encoding n.
Proof.
  set (whites := [9; 10; 11; 12; 13; 32; 133; 160; 5760; 8192; 8193; 8194; 8195; 8196; 8197; 8198; 8199; 8200; 8201; 8202;
    8232; 8233; 8239; 8287; 12288]%N).
  assert (Hs : spaces = map encoding whites) by (vm_compute; reflexivity).
  assert (Hw : forall n, white n <-> n ∈ whites).
  { intros n. unfold white, whites. rewrite !elem_of_cons, elem_of_nil. lia. }
  rewrite Hs. rewrite elem_of_list_In, in_map_iff. split.
  - intros (n & <- & Hn). exists n. split; [|done]. by apply Hw, elem_of_list_In.
  - intros (n & Hn & ->). exists n. split; [done|]. by apply elem_of_list_In, Hw.
Qed.
