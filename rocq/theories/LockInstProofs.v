(** * Linearizability, panics and deadlocks of the thread safe objects. *)
From Verif Require Import GoBase GoStrings LangModel LockModel LockProofs LockInst.
From Coq Require Import Lia.

(** ** Objects given by a method per call and a sequential specification *)
Section Obj.
  Context {S L O : Type} (meth : O -> method S L) (spec : S -> O -> S * option L).

  (** The calls one after the other. *)
  Fixpoint obj_run (s : S) (calls : list (nat * O)) : S * list (nat * option L) :=
    match calls with
    | [] => (s, [])
    | (t, o) :: calls' => let '(s1, r) := spec s o in let '(s2, rs) := obj_run s1 calls' in (s2, (t, r) :: rs)
    end.
  Definition calls_only (acts : list (action S L)) : Prop :=
    Forall (fun a => match a with AInv _ m => exists o, m = meth o | _ => True end) acts.
  (** The calls in the order in which they got the lock. *)
  Definition order_of_locking (calls : list (nat * O)) (tr : list (label S L)) : Prop :=
    acquisitions tr = map (fun c => (c.1, meth c.2)) calls.

  Context (Hok : forall o, method_ok (meth o))
          (Hspec : forall o s, run_body (m_body (meth o)) s (m_init (meth o)) = spec s o).

  Lemma seq_run_obj s calls : seq_run s (map (fun c => (c.1, meth c.2)) calls) = obj_run s calls.
  Proof.
    revert s. induction calls as [|[t o] calls IH]; intros s; simpl; [done|]. rewrite Hspec. destruct (spec s o) as [s1 r]. by rewrite IH.
  Qed.
  Lemma acquired_calls s0 acts g tr :
    calls_only acts -> exec (init s0) acts = Some (g, tr) -> exists calls, order_of_locking calls tr.
  Proof.
    intros Hc He.
    assert (HI : (forall t m, c_thr g t = TReq m \/ c_thr g t = TWait m -> exists o, m = meth o) /\ exists calls, order_of_locking calls tr); [|by destruct HI].
    eapply (exec_invariant (fun g tr => (forall t m, c_thr g t = TReq m \/ c_thr g t = TWait m -> exists o, m = meth o) /\ exists calls, order_of_locking calls tr)
      (fun a => match a with AInv _ m => exists o, m = meth o | _ => True end) (init s0) []) with (acts := acts); try done.
    { split; [intros t m [?|?]; done|by exists []]. }
    clear. intros [s k f] tr a g' lb [Hth [calls Hca]] Ha Hs. unfold order_of_locking in *. unfold acquisitions in *. rewrite omap_app, Hca. simpl in Hth.
    assert (Hup : forall t x, (forall m, x = TReq m \/ x = TWait m -> exists o, m = meth o) ->
       forall t' m, upd f t x t' = TReq m \/ upd f t x t' = TWait m -> exists o, m = meth o).
    { intros t x Hx t' m. unfold upd. destruct (decide (t' = t)); [apply Hx|apply Hth]. }
    destruct a as [t m|t|t|t|t|t]; cbn [step c_mem c_lock c_thr] in Hs.
    - destruct (f t) eqn:E; try discriminate. injection Hs as <- <-. simpl. rewrite app_nil_r. split; [|by exists calls].
      apply Hup. intros m' [[= ->]|?]; [done|done].
    - destruct (f t) eqn:E; try discriminate. destruct (decide _) as [(?&?&?)|]; [|discriminate]. injection Hs as <- <-. simpl. rewrite app_nil_r. split; [|by exists calls].
      apply Hup. intros m' [?|[= ->]]; [done|]. eapply Hth. by left.
    - destruct (f t) as [|m|m| | |] eqn:E; try discriminate; destruct (decide _) as [Hd|]; try discriminate; injection Hs as <- <-; simpl;
        (split; [apply Hup; intros m' [?|?]; done|]); (destruct (Hth t m) as [o ->]; [by rewrite E; auto|]); exists (calls ++ [(t, o)]); by rewrite map_app.
    - destruct (f t) as [| | |m [|a rest] l| |] eqn:E; try discriminate.
      destruct (a s l) as [[s' l']|]; [|destruct (m_defer m)]; injection Hs as <- <-; simpl; rewrite app_nil_r;
        (split; [|by exists calls]); apply Hup; intros m' [?|?]; done.
    - destruct (f t) as [| | |m [|a rest] l| |] eqn:E; try discriminate. injection Hs as <- <-. simpl; rewrite app_nil_r;
        (split; [|by exists calls]); apply Hup; intros m' [?|?]; done.
    - destruct (f t) eqn:E; try discriminate. injection Hs as <- <-. simpl; rewrite app_nil_r;
        (split; [|by exists calls]); apply Hup; intros m' [?|?]; done.
  Qed.
  Lemma calls_only_ok acts : calls_only acts -> Forall action_ok acts.
  Proof. intros Hc. eapply Forall_impl; [exact Hc|]. intros [t m| | | | |]; try done. intros [o ->]. apply Hok. Qed.

  Lemma obj_linearizable s0 acts g tr :
    calls_only acts -> exec (init s0) acts = Some (g, tr) ->
    exists calls, order_of_locking calls tr /\
      (forall t, well_bracketed t tr) /\
      (forall t, returns t tr `prefix_of` results t (obj_run s0 calls).2) /\
      (forall t, c_thr g t = TIdle -> returns t tr = results t (obj_run s0 calls).2) /\
      ((forall t m, ~ in_section (c_thr g t) m) -> c_mem g = (obj_run s0 calls).1).
  Proof.
    intros Hc He. destruct (acquired_calls _ _ _ _ Hc He) as [calls Hca]. exists calls. split; [done|].
    split; [intros t; by eapply bracketed|]. destruct (linearizable s0 acts g tr) as (H1 & H2 & H3); [by apply calls_only_ok|done|].
    unfold order_of_locking in Hca. rewrite Hca, seq_run_obj in H1, H2, H3. done.
  Qed.
End Obj.

(** ** The three objects *)
Section LangLin.
  Context (parse_tag : bytes -> bytes) (decode : bytes -> option xdoc) (quote : bytes -> bytes).
  Definition lang_spec (l : lang) (o : slop) : lang * option lres :=
    let '(l', r) := lstep parse_tag decode quote l (lop_of o) in (l', Some r).
  Lemma lang_method_ok o : method_ok (lang_method quote o).
  Proof. destruct o; intros Hw; try done; repeat constructor; intros s l s' l' [= <- <-]; done. Qed.
  Lemma lang_method_spec o l : run_body (m_body (lang_method quote o)) l (m_init (lang_method quote o)) = lang_spec l o.
  Proof. by destruct o. Qed.
  Lemma lang_linearizable l0 acts g tr :
    calls_only (lang_method quote) acts -> exec (init l0) acts = Some (g, tr) ->
    exists calls, order_of_locking (lang_method quote) calls tr /\
      (forall t, well_bracketed t tr) /\
      (forall t, returns t tr `prefix_of` results t (obj_run lang_spec l0 calls).2) /\
      (forall t, c_thr g t = TIdle -> returns t tr = results t (obj_run lang_spec l0 calls).2) /\
      ((forall t m, ~ in_section (c_thr g t) m) -> c_mem g = (obj_run lang_spec l0 calls).1).
  Proof. apply obj_linearizable; [apply lang_method_ok|apply lang_method_spec]. Qed.
End LangLin.

Section TsLin.
  Context {D V Q R : Type}.
  Context (inner_set : D -> bytes -> V -> option D) (inner_del : D -> bytes -> option D)
          (inner_clone : D -> option R) (inner_read : D -> Q -> option R).
  Notation ts_method := (ts_method inner_set inner_del inner_clone inner_read).
  (** The wrapper answers like the wrapped dataset. *)
  Definition ts_spec (s : option D) (o : @tsop V Q) : option D * option (@tsres R) :=
    match s with
    | None => (None, None)
    | Some d =>
        match o with
        | TSet k v => match inner_set d k v with Some d' => (Some d', Some TUnit) | None => (s, None) end
        | TDel k => match inner_del d k with Some d' => (Some d', Some TUnit) | None => (s, None) end
        | TClone => (s, option_map TGot (inner_clone d))
        | TRead q => (s, option_map TGot (inner_read d q))
        end
    end.
  Lemma ts_method_ok o : method_ok (ts_method o).
  Proof.
    destruct o; intros Hw; try discriminate Hw; apply Forall_singleton; intros s l s' l' He; repeat (case_match; simplify_eq); done.
  Qed.
  Lemma ts_method_spec o s : run_body (m_body (ts_method o)) s (m_init (ts_method o)) = ts_spec s o.
  Proof. destruct o, s; simpl; try done; repeat (case_match; simplify_eq/=); done. Qed.
  Lemma ts_linearizable s0 acts g tr :
    calls_only ts_method acts -> exec (init s0) acts = Some (g, tr) ->
    exists calls, order_of_locking ts_method calls tr /\
      (forall t, well_bracketed t tr) /\
      (forall t, returns t tr `prefix_of` results t (obj_run ts_spec s0 calls).2) /\
      (forall t, c_thr g t = TIdle -> returns t tr = results t (obj_run ts_spec s0 calls).2) /\
      ((forall t m, ~ in_section (c_thr g t) m) -> c_mem g = (obj_run ts_spec s0 calls).1).
  Proof. apply obj_linearizable; [apply ts_method_ok|apply ts_method_spec]. Qed.
End TsLin.

Section CollLin.
  Context {D : Type} (show : nat -> D -> bytes).
  Notation coll_method := (coll_method show).
  Notation deque := (deque show).
  Lemma coll_method_ok o : method_ok (coll_method o).
  Proof.
    destruct o; intros Hw; try discriminate Hw; apply Forall_singleton; intros s l s' l' He; simpl in He; repeat case_match; by simplify_eq.
  Qed.
  Lemma coll_method_spec o s : run_body (m_body (coll_method o)) s (m_init (coll_method o)) = deque s o.
  Proof.
    destruct o; simpl; try done.
    - by destruct s.
    - destruct s as [|d s _] using rev_ind; [done|]. rewrite reverse_app. simpl. rewrite app_length. simpl.
      replace (length s + 1 - 1) with (length s) by lia. change (list_lookup (length s) (s ++ [d])) with ((s ++ [d]) !! length s).
      rewrite lookup_app_r by lia. rewrite Nat.sub_diag. simpl. rewrite app_length. simpl. replace (length s + 1 - 1) with (length s) by lia.
      rewrite take_app. by rewrite reverse_involutive.
    - destruct (decide (i < 0 \/ Z.of_nat (length s) <= i)%Z) as [Hi|Hi].
      + rewrite bool_decide_true by done. destruct (decide (0 <= i)%Z) as [H0|H0].
        * rewrite (bool_decide_true (0 <= i)%Z) by done. by rewrite lookup_ge_None_2 by lia.
        * by rewrite (bool_decide_false (0 <= i)%Z) by done.
      + rewrite bool_decide_false by done. rewrite (bool_decide_true (0 <= i)%Z) by lia.
        destruct (lookup_lt_is_Some_2 s (Z.to_nat i)) as [d ->]; [lia|done].
    - by destruct (s !! i).
  Qed.
  Lemma coll_linearizable s0 acts g tr :
    calls_only coll_method acts -> exec (init s0) acts = Some (g, tr) ->
    exists calls, order_of_locking coll_method calls tr /\
      (forall t, well_bracketed t tr) /\
      (forall t, returns t tr `prefix_of` results t (obj_run deque s0 calls).2) /\
      (forall t, c_thr g t = TIdle -> returns t tr = results t (obj_run deque s0 calls).2) /\
      ((forall t m, ~ in_section (c_thr g t) m) -> c_mem g = (obj_run deque s0 calls).1).
  Proof. apply obj_linearizable; [apply coll_method_ok|apply coll_method_spec]. Qed.
End CollLin.
