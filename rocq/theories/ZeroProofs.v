(** * Zero values (C97). *)
From Verif Require Import GoBase GoStrings LangModel LangSpec LangProofs CacheModel ZeroModel ZeroSpec.

Section ZeroLang.
  Context (parse_tag : bytes -> bytes) (decode : bytes -> option xdoc) (quote : bytes -> bytes).
  Notation zstep := (zstep parse_tag decode quote).
  Notation zrun := (zrun parse_tag decode quote).
  Notation lstep := (lstep parse_tag decode quote).
  Notation lrun := (lrun parse_tag decode quote).

  Lemma line_entry_load l line : load_line l line = match line_entry line with Some (k, v) => lset l k v | None => l end.
  Proof.
    unfold load_line, line_entry. destruct line; [done|]. destruct (cut_at _ _) as [[u w]|]; [|done]. case_bool_decide; [done|]. by destruct (trim_space u).
  Qed.
  Lemma line_entry_spec line : match line_entry line with Some (k, v) => entry_line line k v | None => forall k v, ~ entry_line line k v end.
  Proof.
    pose (l := Lang [] [] ∅ ∅). pose proof (line_entry_load l line) as E. destruct (load_line_spec l line) as [(k & v & H & E2)|[H E2]]; rewrite E in E2.
    - destruct (line_entry line) as [[k' v']|]; [|exfalso; assert (l_entries l !! k = Some v) as X by (rewrite E2; apply lookup_insert); done].
      apply (f_equal l_entries) in E2. simpl in E2. assert ((<[k':=v']> ∅ : table) !! k = Some v) as X by (rewrite E2; apply lookup_insert).
      apply lookup_insert_Some in X as [[-> ->]|[_ X]]; [done|done].
    - destruct (line_entry line) as [[k' v']|]; [|done]. exfalso. assert (l_entries l !! k' = Some v') as X by (rewrite <- E2; apply lookup_insert). done.
  Qed.

  (** ** Languages that were made *)
  Lemma made_lines lines : forall l, zload_lines (made_lang l) lines = (made_lang (fold_left load_line lines l), None).
  Proof.
    induction lines as [|x lines IH]; intros l; [done|]. simpl. rewrite line_entry_load. destruct (line_entry x) as [[k v]|]; [|apply IH]. apply (IH (lset l k v)).
  Qed.
  Lemma made_entries es : forall l, zadd_entries (made_lang l) es = (made_lang (fold_left add_entry es l), true).
  Proof. induction es as [|[[id text] st] es IH]; intros l; [done|]. simpl. apply (IH (add_entry l (id, text, st))). Qed.
  Lemma made_step l o : zstep (made_lang l) o = (made_lang (lstep l o).1, ZDone (lstep l o).2).
  Proof.
    destruct o; try done; simpl; try (by destruct l).
    - unfold load_string. destruct (scan_lines data) as [lines ok]. by rewrite made_lines.
    - unfold load_xml. destruct (decode data) as [d|]; [|done].
      pose proof (made_entries (x_entries d) (Lang (x_name d) (parse_tag (x_lang d)) (l_entries l) (l_status l))) as E. unfold made_lang in E at 1. simpl in E. by rewrite E.
  Qed.
  Lemma made_run ops : forall l, zrun (made_lang l) ops = (made_lang (lrun l ops).1, map ZDone (lrun l ops).2).
  Proof.
    induction ops as [|o ops IH]; intros l; [done|]. simpl. rewrite made_step. destruct (lstep l o) as [l1 r]. simpl. rewrite IH. by destruct (lrun l1 ops).
  Qed.

  (** ** &XLanguage{} *)
  Definition zero (l : zlang) : Prop := zl_entries l = None /\ zl_status l = None.
  Definition no_flat (lines : list bytes) : Prop := forall line k v, line ∈ lines -> ~ entry_line line k v.
  Lemma zero_lines l lines : zero l ->
    (no_flat lines /\ zload_lines l lines = (l, None)) \/
    ((exists line k v, line ∈ lines /\ entry_line line k v) /\
     zload_lines l lines = (ZLang (zl_name l) (zl_tag l) None None true, Some (if zl_held l then ZBlock else ZPanic))).
  Proof.
    intros [H1 H2]. induction lines as [|x lines IH]; [left; split; [|done]; intros line k v H; by apply elem_of_nil in H|].
    simpl. pose proof (line_entry_spec x) as S. destruct (line_entry x) as [[k v]|].
    - right. split; [exists x, k, v; split; [constructor|done]|]. destruct (zl_held l) eqn:E; [destruct l; simpl in *; by subst|]. rewrite H1. simpl. by rewrite H2.
    - destruct IH as [[N E]|[(line & k & v & Hi & He) E]].
      + left. split; [|done]. intros line k v Hi. apply elem_of_cons in Hi as [->|Hi]; [apply S|by apply N].
      + right. split; [|done]. exists line, k, v. split; [by constructor|done].
  Qed.
  Lemma zero_entries l es : zero l -> zadd_entries l es = (l, match es with [] => true | _ => false end).
  Proof. intros [H1 H2]. destruct es as [|[[id t] s] es]; [done|]. simpl. by rewrite H1. Qed.
  Lemma zero_seen l : zero l -> seen l = Lang (zl_name l) (zl_tag l) ∅ ∅.
  Proof. intros [H1 H2]. unfold seen. by rewrite H1, H2. Qed.
  Lemma zero_keeps l o : zero l -> zero (zstep l o).1.
  Proof.
    intros Hz. pose proof Hz as [H1 H2]. destruct o; simpl; try done.
    - destruct (zl_held l); [done|]. by rewrite H1.
    - destruct (zl_held l); [done|]. by rewrite H2.
    - destruct (zl_held l); [done|]. by rewrite H1, H2.
    - destruct (scan_lines data) as [lines ok]. by destruct (zero_lines l lines Hz) as [[_ ->]|[_ ->]].
    - destruct (decode data) as [d|]; [|done]. destruct (zl_held l) eqn:E; [done|]. by rewrite zero_entries.
  Qed.
  (** A call that stores nothing and does not wait answers as on an empty language that was made. *)
  Lemma zero_reads l o : zero l -> ~ stores_entry decode o -> zl_held l = false ->
    (zstep l o).2 = ZDone (lstep (seen l) o).2 /\ seen (zstep l o).1 = (lstep (seen l) o).1 /\ zl_held (zstep l o).1 = false.
  Proof.
    intros Hz Hs Hh. pose proof Hz as [H1 H2]. rewrite (zero_seen _ Hz). destruct o; simpl in *; rewrite ?Hh; try done; try (by rewrite zero_seen);
      try (by (unfold seen, ldel, lget, lget_status; simpl; rewrite ?H1, ?H2; simpl; rewrite ?delete_empty)).
    - unfold flat_entry in Hs. unfold load_string. destruct (scan_lines data) as [lines ok]. simpl in Hs. destruct (zero_lines l lines Hz) as [[N ->]|[K _]].
      + assert (fold_left load_line lines (Lang (zl_name l) (zl_tag l) ∅ ∅) = Lang (zl_name l) (zl_tag l) ∅ ∅) as ->; [|simpl; by rewrite zero_seen].
        clear Hs. induction lines as [|x lines IH]; [done|]. simpl. rewrite line_entry_load. pose proof (line_entry_spec x) as S.
        destruct (line_entry x) as [[k v]|]; [exfalso; eapply N; [constructor|done]|]. apply IH. intros line k v Hi. apply N. by constructor.
      + exfalso. apply Hs. destruct K as (line & k & v & ?). by exists line, k, v.
    - unfold load_xml. destruct (decode data) as [d|]; [|simpl; by rewrite zero_seen]. rewrite zero_entries by done.
      destruct (x_entries d) eqn:E; [simpl; by unfold seen; rewrite H1, H2|]. exfalso. apply Hs. exists d. by rewrite E.
  Qed.
  Lemma zero_writes l o : zero l -> stores_entry decode o -> (zstep l o).2 = if zl_held l then ZBlock else ZPanic.
  Proof.
    intros Hz Hs. pose proof Hz as [H1 H2]. destruct o; simpl in *; try done.
    - destruct (zl_held l); [done|]. by rewrite H1.
    - destruct (zl_held l); [done|]. by rewrite H2.
    - destruct Hs as (line & k & v & Hi & He). destruct (scan_lines data) as [lines ok]. simpl in Hi. destruct (zero_lines l lines Hz) as [[N _]|[_ ->]]; [|done].
      exfalso. by eapply N.
    - destruct Hs as (d & E & Hn). rewrite E. destruct (zl_held l); [done|]. rewrite zero_entries by done. by destruct (x_entries d).
  Qed.
  Lemma zero_held l o : zero l -> zl_held l = false -> (zl_held (zstep l o).1 = true <-> exists data, o = LLoadString data /\ flat_entry data).
  Proof.
    intros Hz Hh. pose proof Hz as [H1 H2].
    assert (F : zl_held (zstep l o).1 = false -> (forall data, o = LLoadString data -> ~ flat_entry data) -> (zl_held (zstep l o).1 = true <-> exists data, o = LLoadString data /\ flat_entry data)).
    { intros E N. rewrite E. split; [done|]. intros (data & -> & Hf). by destruct (N data eq_refl). }
    destruct o; try (apply F; [|done]); simpl; try done; try (by rewrite Hh).
    - by rewrite Hh, H1.
    - by rewrite Hh, H2.
    - unfold flat_entry. destruct (scan_lines data) as [lines ok] eqn:E. destruct (zero_lines l lines Hz) as [[N ->]|[(line & k & v & K) ->]]; simpl.
      + rewrite Hh. split; [done|]. intros (data' & [= <-] & line & k & v & Hi & He). rewrite E in Hi. exfalso. by eapply N.
      + split; [|done]. intros _. exists data. split; [done|]. rewrite E. by exists line, k, v.
    - destruct (decode data); [|done]. rewrite Hh. by rewrite zero_entries.
  Qed.
  Lemma held_stays l o : zl_held l = true -> zl_held (zstep l o).1 = true.
  Proof.
    intros Hh. destruct o; simpl; rewrite ?Hh; try done.
    - destruct (scan_lines data) as [lines ok]. assert (zl_held (zload_lines l lines).1 = true) as X.
      { induction lines as [|x lines IH]; [done|]. simpl. destruct (line_entry x) as [[k v]|]; [by rewrite Hh|done]. }
      by destruct (zload_lines l lines) as [l1 [r|]].
    - by destruct (decode data).
  Qed.
  Lemma held_blocks l o : zl_held l = true -> locks decode o -> (zstep l o).2 = ZBlock.
  Proof.
    intros Hh Hl. destruct o; simpl in *; rewrite ?Hh; try done.
    - destruct Hl as (line & k & v & Hi & He). destruct (scan_lines data) as [lines ok]. simpl in Hi.
      assert (exists l1, zload_lines l lines = (l1, Some ZBlock)) as (l1 & ->); [|done].
      induction lines as [|x lines IH]; [by apply elem_of_nil in Hi|]. simpl. pose proof (line_entry_spec x) as S. destruct (line_entry x) as [[k' v']|]; [rewrite Hh; eauto|].
      apply elem_of_cons in Hi as [->|Hi]; [by destruct (S k v)|by apply IH].
    - by destruct (decode data).
  Qed.
  Lemma run_reads ops : forall l, zero l -> zl_held l = false -> Forall (fun o => ~ stores_entry decode o) ops -> (zrun l ops).2 = map ZDone (lrun (seen l) ops).2.
  Proof.
    induction ops as [|o ops IH]; intros l Hz Hh Hs; [done|]. apply Forall_cons in Hs as [H1 H2]. destruct (zero_reads l o Hz H1 Hh) as (E1 & E2 & E3). pose proof (zero_keeps l o Hz) as K.
    simpl. destruct (zstep l o) as [l1 r]. simpl in *. specialize (IH l1 K E3 H2). destruct (zrun l1 ops) as [l2 rs]. simpl in *. rewrite E2 in IH.
    destruct (lstep (seen l) o) as [s1 r1]. simpl in *. destruct (lrun s1 ops) as [s2 rs1]. simpl in *. by rewrite E1, IH.
  Qed.
  Lemma run_keeps ops : forall l, zero l -> zero (zrun l ops).1.
  Proof.
    induction ops as [|o ops IH]; intros l Hz; [done|]. pose proof (zero_keeps l o Hz) as K. simpl. destruct (zstep l o) as [l1 r]. specialize (IH l1 K). by destruct (zrun l1 ops).
  Qed.
  Lemma run_held ops : forall l, zero l -> zl_held (zrun l ops).1 = true <-> zl_held l = true \/ exists data, LLoadString data ∈ ops /\ flat_entry data.
  Proof.
    induction ops as [|o ops IH]; intros l Hz.
    - simpl. split; [by left|]. intros [?|(data & H & _)]; [done|by apply elem_of_nil in H].
    - pose proof (zero_keeps l o Hz) as K. pose proof (zero_held l o Hz) as Hh. pose proof (held_stays l o) as Hst. simpl. destruct (zstep l o) as [l1 r]. simpl in *. specialize (IH l1 K). destruct (zrun l1 ops) as [l2 rs]. simpl in *.
      rewrite IH. destruct (zl_held l) eqn:E; [split; [by left|left; by apply Hst]|]. rewrite (Hh eq_refl). split.
      + intros [(data & -> & F)|(data & Hi & F)]; right; exists data; (split; [by constructor|done]).
      + intros [?|(data & Hi & F)]; [done|]. apply elem_of_cons in Hi as [Hi|Hi]; [left; exists data; done|right; eauto].
  Qed.
  Lemma zrun_app ops1 ops2 l : zrun l (ops1 ++ ops2) = ((zrun (zrun l ops1).1 ops2).1, (zrun l ops1).2 ++ (zrun (zrun l ops1).1 ops2).2).
  Proof.
    revert l. induction ops1 as [|o ops1 IH]; intros l; simpl; [by destruct (zrun l ops2)|]. destruct (zstep l o) as [l1 r]. rewrite IH. by destruct (zrun l1 ops1) as [l2 rs].
  Qed.
  Lemma next_result l ops o : (zrun l (ops ++ [o])).2 = (zrun l ops).2 ++ [(zstep (zrun l ops).1 o).2].
  Proof. rewrite zrun_app. simpl. by destruct (zstep (zrun l ops).1 o). Qed.
  Lemma held_run tag ops : zl_held (zrun (zero_lang tag) ops).1 = true <-> exists data, LLoadString data ∈ ops /\ flat_entry data.
  Proof. rewrite run_held by done. split; [by intros [?|?]|by right]. Qed.

  Lemma free_does_not_block l o : zero l -> zl_held l = false -> (zstep l o).2 <> ZBlock.
  Proof.
    intros Hz Hh. pose proof Hz as [H1 H2]. destruct o; simpl; rewrite ?Hh; try done.
    - by rewrite H1.
    - by rewrite H2.
    - destruct (scan_lines data) as [lines ok]. destruct (zero_lines l lines Hz) as [[_ ->]|[_ ->]]; [done|]. by rewrite Hh.
    - destruct (decode data) as [d|]; [|done]. rewrite zero_entries by done. by destruct (x_entries d).
  Qed.
  (** The theorems, from &XLanguage{}. *)
  Theorem reads_as_empty tag ops : Forall (fun o => ~ stores_entry decode o) ops ->
    (zrun (zero_lang tag) ops).2 = map ZDone (lrun (new_lang [] tag) ops).2.
  Proof. apply run_reads; done. Qed.
  Theorem stores_fail tag ops o : stores_entry decode o -> ~ (exists data, LLoadString data ∈ ops /\ flat_entry data) ->
    (zrun (zero_lang tag) (ops ++ [o])).2 = (zrun (zero_lang tag) ops).2 ++ [ZPanic].
  Proof.
    intros Hs Hn. rewrite next_result, (zero_writes _ o) by (done || by apply run_keeps). rewrite <- (held_run tag) in Hn. by destruct (zl_held _).
  Qed.
  Theorem stays_empty tag ops k : let l := (zrun (zero_lang tag) ops).1 in
    (zstep l (LGet k)).2 = ZBlock \/ ((zstep l (LGet k)).2 = ZDone (LText []) /\ (zstep l (LGetStatus k)).2 = ZDone (LText [])).
  Proof.
    intros l. assert (zero l) as Hz by (by apply run_keeps). simpl. destruct (zl_held l); [by left|right]. by rewrite zero_seen.
  Qed.
  Theorem lock_kept tag ops o : locks decode o ->
    ((zrun (zero_lang tag) (ops ++ [o])).2 = (zrun (zero_lang tag) ops).2 ++ [ZBlock] <-> exists data, LLoadString data ∈ ops /\ flat_entry data).
  Proof.
    intros Hl. rewrite next_result. rewrite <- (held_run tag). set (l := (zrun (zero_lang tag) ops).1). assert (zero l) as Hz by (by apply run_keeps). split.
    - intros E. apply app_inv_head in E. injection E as E. destruct (zl_held l) eqn:Eh; [done|].
      exfalso. by eapply free_does_not_block.
    - intros Hh. by rewrite held_blocks.
  Qed.
End ZeroLang.

(** ** &XCache{} *)
Section ZeroCache.
  Context {D : Type} (dnil : D).
  Notation cstep := (step dnil).
  Notation crun := (run dnil).
  Lemma made_cache_step (c : cache D) o : zcstep dnil (ZCache (c_max c) (c_expire c) (Some (c_items c)) (c_pile c)) o =
    let c' := (cstep c o).1 in (ZCache (c_max c') (c_expire c') (Some (c_items c')) (c_pile c'), (cstep c o).2).
  Proof. unfold zcstep, as_cache. simpl. destruct c as [a b d e]. simpl. destruct (cstep _ o) as [c' r]. by destruct o. Qed.
  Lemma made_cache_run ops : forall c : cache D, (zcrun dnil (ZCache (c_max c) (c_expire c) (Some (c_items c)) (c_pile c)) ops).2 = map snd (crun c ops).2.
  Proof.
    induction ops as [|o ops IH]; intros c; [done|]. cbn [zcrun run]. rewrite made_cache_step. destruct (cstep c o) as [c' r]. simpl. specialize (IH c').
    destruct (zcrun _ _ ops) as [c2 rs]. destruct (crun c' ops) as [c3 tr]. simpl in *. by rewrite IH.
  Qed.
  Lemma purge_empty e now : purge e now (∅ : gmap bytes (entry D)) = ∅.
  Proof. unfold purge. destruct (decide _); [done|]. apply map_filter_empty. Qed.
  Lemma clean_empty m e perc now : mclean (Cache m e ∅ []) perc now = (Cache (D := D) m e ∅ [], RInt 0).
  Proof. unfold mclean. simpl. rewrite purge_empty, map_size_empty. unfold quota. simpl. done. Qed.
  Lemma empty_step m e o : is_set o = false -> exists m' e', (cstep (new_cache m e) o).1 = new_cache m' e'.
  Proof.
    intros Hs. unfold new_cache. destruct o; simpl in *; try done; try (by eexists _, _); try (by (unfold del; simpl; rewrite delete_empty; eauto)).
    - rewrite clean_empty. eauto.
    - unfold verify. rewrite clean_empty. destruct v as [f|]; [|eauto]. simpl.
      assert (forall os i, verify_loop f os (Cache m e ∅ []) i = (Cache (D := D) m e ∅ [], i)) as E; [|rewrite E; eauto].
      induction os as [|k os IH]; intros i; [done|]. simpl. rewrite lookup_empty. apply IH.
  Qed.
  Lemma unmade_step m e o : ~ flushes o -> 
    zcstep dnil (zero_cache m e) o = if is_set o then (zero_cache m e, RPanic)
      else let c' := (cstep (new_cache m e) o).1 in (zero_cache (c_max c') (c_expire c'), (cstep (new_cache m e) o).2).
  Proof.
    intros Hf. destruct (is_set o) eqn:E.
    - destruct o; try done. unfold zcstep. destruct (cstep _ _). done.
    - destruct (empty_step m e o E) as (m' & e' & Ec). unfold zcstep. change (as_cache (zero_cache m e)) with (new_cache (D := D) m e).
      destruct (cstep (new_cache m e) o) as [c' r]. simpl in *. subst c'. by destruct o.
  Qed.
  Lemma others_set o (ops : list (op D)) : others (o :: ops) = if is_set o then others ops else o :: others ops.
  Proof. unfold others. destruct (is_set o) eqn:E; [rewrite filter_cons_False; [done|congruence]|by rewrite filter_cons_True]. Qed.
  Lemma unmade_run ops : forall m e, Forall (fun o => ~ flushes o) ops -> exists m' e',
    (crun (new_cache m e) (others ops)).1 = new_cache m' e' /\ (zcrun dnil (zero_cache m e) ops).1 = zero_cache m' e' /\
    with_panics ops (map snd (crun (new_cache m e) (others ops)).2) (zcrun dnil (zero_cache m e) ops).2.
  Proof.
    induction ops as [|o ops IH]; intros m e Hf; [exists m, e; split_and!; try done; constructor|]. apply Forall_cons in Hf as [H1 H2].
    rewrite others_set. cbn [zcrun]. rewrite unmade_step by done. destruct (is_set o) eqn:E.
    - destruct (IH m e H2) as (m' & e' & I1 & I2 & I3). exists m', e'. destruct (zcrun dnil (zero_cache m e) ops) as [c2 rs]. simpl in *. split_and!; [done|done|by constructor].
    - destruct (empty_step m e o E) as (m1 & e1 & Ec). cbn [run]. destruct (cstep (new_cache m e) o) as [c' r]. simpl in *. subst c'. simpl.
      destruct (IH m1 e1 H2) as (m' & e' & I1 & I2 & I3). exists m', e'. destruct (zcrun dnil (zero_cache m1 e1) ops) as [c2 rs]. destruct (crun (new_cache m1 e1) (others ops)) as [c3 tr]. simpl in *.
      split_and!; [done|done|by constructor].
  Qed.
  Lemma zcrun_app ops1 ops2 (c : zcache D) : (zcrun dnil c (ops1 ++ ops2)).2 = (zcrun dnil c ops1).2 ++ (zcrun dnil (zcrun dnil c ops1).1 ops2).2.
  Proof.
    revert c. induction ops1 as [|o ops1 IH]; intros c; simpl; [done|]. destruct (zcstep dnil c o) as [c1 r]. specialize (IH c1).
    destruct (zcrun dnil c1 (ops1 ++ ops2)). destruct (zcrun dnil c1 ops1). simpl in *. by rewrite IH.
  Qed.
  Lemma zcrun_cons (c : zcache D) o ops : (zcrun dnil c (o :: ops)).2 = (zcstep dnil c o).2 :: (zcrun dnil (zcstep dnil c o).1 ops).2.
  Proof. simpl. destruct (zcstep dnil c o) as [c1 r]. simpl. by destruct (zcrun dnil c1 ops). Qed.
  Theorem flush_makes m e ops1 ops2 : Forall (fun o => ~ flushes o) ops1 -> exists m' e',
    (crun (new_cache m e) (others ops1)).1 = new_cache m' e' /\
    (zcrun dnil (zero_cache m e) (ops1 ++ OFlush :: ops2)).2 = (zcrun dnil (zero_cache m e) ops1).2 ++ RUnit :: map snd (crun (new_cache m' e') ops2).2.
  Proof.
    intros Hf. destruct (unmade_run ops1 m e Hf) as (m' & e' & H1 & H2 & _). exists m', e'. split; [done|]. rewrite zcrun_app, H2. f_equal. rewrite <- (made_cache_run ops2), zcrun_cons. reflexivity.
  Qed.
  Theorem before_flush m e ops : Forall (fun o => ~ flushes o) ops ->
    with_panics ops (map snd (crun (new_cache m e) (others ops)).2) (zcrun dnil (zero_cache m e) ops).2.
  Proof. intros Hf. by destruct (unmade_run ops m e Hf) as (m' & e' & _ & _ & H). Qed.
End ZeroCache.
