(** * Proofs about datasets with a nil map (C100). *)
From Verif Require Import GoBase GoStrings LangModel DatasetModel DatasetSpec DatasetProofs2 DatasetProofs3 TemplateModel NilModel NilSpec.
Local Open Scope Z_scope.

(** ** Execution: both models take the same steps until the first store into a nil map *)
Section Execute.
  Context (N : gset loc).
  Definition spoiled (h : heap) : Prop := exists x m, x ∈ N /\ h !! x = Some (ODs m) /\ is_Some (m !! B ".counter").
  Lemma spoiled_not_nil h : spoiled h -> ~ nil_maps N h.
  Proof. intros (x & m & Hx & Hm & [v Hv]) Hn. rewrite (Hn x Hx) in Hm. injection Hm as <-. by rewrite lookup_empty in Hv. Qed.
  (** [o1] with nil maps, [o2] with empty maps; [p] finds the heap in the result. *)
  Definition relp {R} (p : R -> heap) (o1 o2 : outcome R) : Prop :=
    match o2 with
    | Ok r => (nil_maps N (p r) /\ o1 = Ok r) \/ (spoiled (p r) /\ o1 = Panic)
    | Panic => o1 = Panic
    | NoFuel => o1 = NoFuel \/ o1 = Panic
    end.
  Definition keepsp {R} (p : R -> heap) (h : heap) (o : outcome R) : Prop := spoiled h -> forall r, o = Ok r -> spoiled (p r).
  Lemma rel_bind {R T} (p : R -> heap) (q : T -> heap) (o1 o2 : outcome R) (f1 f2 : R -> outcome T) :
    relp p o1 o2 -> (forall r, nil_maps N (p r) -> relp q (f1 r) (f2 r)) -> (forall r, keepsp q (p r) (f2 r)) -> relp q (obind o1 f1) (obind o2 f2).
  Proof.
    intros H Hf Hk. destruct o2 as [r| |]; simpl in H.
    - destruct H as [[H ->]|[H ->]]; [by apply Hf|]. simpl. destruct (f2 r) as [r'| |] eqn:E; simpl; [|done|by right]. right. split; [|done]. by apply (Hk r H r').
    - by subst.
    - destruct H as [->| ->]; simpl; [by left|by right].
  Qed.
  (** A part that does not touch the state. *)
  Lemma rel_pure {A T} (q : T -> heap) (o : outcome A) (f1 f2 : A -> outcome T) : (forall a, relp q (f1 a) (f2 a)) -> relp q (obind o f1) (obind o f2).
  Proof. intros H. destruct o; simpl; [apply H|done|by left]. Qed.
  Lemma rel_ok {R} (p : R -> heap) r : nil_maps N (p r) -> relp p (Ok r) (Ok r).
  Proof. intros H. left. done. Qed.
  Lemma keeps_bind {R T} (p : R -> heap) (q : T -> heap) h (o : outcome R) (f : R -> outcome T) :
    keepsp p h o -> (forall r, keepsp q (p r) (f r)) -> keepsp q h (obind o f).
  Proof. intros H Hf Hs r E. destruct o as [r'| |]; try done. simpl in E. by apply (Hf r' (H Hs r' eq_refl)). Qed.
  Lemma keeps_pure {A T} (q : T -> heap) h (o : outcome A) (f : A -> outcome T) : (forall a, keepsp q h (f a)) -> keepsp q h (obind o f).
  Proof. intros H Hs r E. destruct o as [a| |]; try done. by apply (H a Hs r). Qed.
  Lemma keeps_ok {R} (p : R -> heap) r h : h = p r -> keepsp p h (Ok r).
  Proof. intros -> Hs r' [= <-]. done. Qed.
  Lemma keeps_panic {R} (p : R -> heap) h : keepsp p h Panic.
  Proof. intros _ r. done. Qed.
  (** The counter. *)
  Lemma dset_keeps n h l v h' : dset n h l (B ".counter") v = Ok h' -> spoiled h -> spoiled h'.
  Proof.
    intros (x & m & Hi & ->)%dset_inside (y & m' & Hy & Hm & Hc). apply inside_at in Hi. destruct (decide (x = y)) as [->|Hne].
    - rewrite Hm in Hi. injection Hi as ->. eexists y, _. split; [done|]. rewrite lookup_insert. split; [done|]. rewrite lookup_insert. by eexists.
    - exists y, m'. by rewrite lookup_insert_ne.
  Qed.
  Lemma nset_rel n h l v : nil_maps N h -> match dset n h l (B ".counter") v with
    | Ok h' => (nil_maps N h' /\ nset N n h l (B ".counter") v = Ok h') \/ (spoiled h' /\ nset N n h l (B ".counter") v = Panic)
    | x => nset N n h l (B ".counter") v = x
    end.
  Proof.
    intros Hn. unfold dset, nset. revert l. induction n as [|n IH]; intros l; [done|]. simpl. destruct (h !! l) as [[m|[d|]| |]|] eqn:E; try done; [|by apply IH].
    destruct (decide (l ∈ N)) as [Hl|Hl]; [right|left]; (split; [|done]).
    - eexists l, _. rewrite lookup_insert. split; [done|]. split; [done|]. rewrite lookup_insert. by eexists.
    - intros x Hx. rewrite lookup_insert_ne; [by apply Hn|]. intros ->. done.
  Qed.

  Notation rel := (relp (fun r => r.1.1)).
  Notation keeps := (keepsp (fun r => r.1.1)).
  Notation rel3 := (relp (fun r => r.1.1.1)).
  Notation keeps3 := (keepsp (fun r => r.1.1.1)).
  Context (F : golib) (ord : heap -> gmap bytes value -> list (bytes * value)) (langs : nat -> option lang) (th : theap).
  Section Body.
    Context (n : nat) (lg : option lang).
    Context (inj1 inj2 : heap * option (list loc) -> loc -> outcome (heap * option (list loc) * bytes)).
    Context (Hinj : forall st t, nil_maps N st.1 -> rel (inj1 st t) (inj2 st t)).
    Context (Hkeep : forall st t, keeps st.1 (inj2 st t)).
    Lemma run_on_keeps st t : keeps st.1 (run_on inj2 st t).
    Proof. unfold run_on. apply (keeps_bind (fun r => r.1.1)); [apply Hkeep|]. intros [st' out]. by apply keeps_ok. Qed.
    Lemma run_on_rel st t : nil_maps N st.1 -> rel (run_on inj1 st t) (run_on inj2 st t).
    Proof. intros H. unfold run_on. apply (rel_bind (fun r => r.1.1)); [by apply Hinj| |]; intros [st' out]; [intros; by apply rel_ok|by apply keeps_ok]. Qed.
    Lemma run_opt_keeps st t : keeps st.1 (run_opt inj2 st t).
    Proof. destruct t; [apply run_on_keeps|by apply keeps_ok]. Qed.
    Lemma run_opt_rel st t : nil_maps N st.1 -> rel (run_opt inj1 st t) (run_opt inj2 st t).
    Proof. intros H. destruct t; [by apply run_on_rel|by apply rel_ok]. Qed.
    (** A call with one more dataset on the stack. *)
    Lemma pushed_keeps {C} h sc t (g : heap * option (list loc) -> bytes -> C) :
      keeps h ('(st2, out) <-! inj2 (h, sc) t; sc3 <-! spop st2.2; Ok ((st2.1, sc3), g (st2.1, sc3) out)).
    Proof. apply (keeps_bind (fun r => r.1.1)); [apply (Hkeep (h, sc))|]. intros [st2 out]. apply keeps_pure. intros sc3. by apply keeps_ok. Qed.
    Lemma pushed_rel {C} h sc t (g : heap * option (list loc) -> bytes -> C) : nil_maps N h ->
      rel ('(st2, out) <-! inj1 (h, sc) t; sc3 <-! spop st2.2; Ok ((st2.1, sc3), g (st2.1, sc3) out))
          ('(st2, out) <-! inj2 (h, sc) t; sc3 <-! spop st2.2; Ok ((st2.1, sc3), g (st2.1, sc3) out)).
    Proof.
      intros H. apply (rel_bind (fun r => r.1.1)); [by apply Hinj| |]; intros [st2 out].
      - intros H2. apply rel_pure. intros sc3. by apply rel_ok.
      - apply keeps_pure. intros sc3. by apply keeps_ok.
    Qed.
    Lemma reference_keeps st t xid : keeps st.1 (do_reference F ord th n inj2 st t xid).
    Proof.
      unfold do_reference. destruct xid as [|a [|f [|p [|]]]]; try (apply keeps_pure; intros [x|]; [apply run_on_keeps|by apply keeps_ok]).
      - apply keeps_pure. intros [x|]; [|by apply keeps_ok]. apply keeps_pure. intros v. destruct (v ≫= as_dataset st.1); [|apply run_on_keeps].
        apply keeps_pure. intros sc1. apply (pushed_keeps st.1 sc1 x (fun _ out => [out])).
      - apply keeps_pure. intros v. apply keeps_pure. intros r. apply run_opt_keeps.
    Qed.
    Lemma reference_rel st t xid : nil_maps N st.1 -> rel (do_reference F ord th n inj1 st t xid) (do_reference F ord th n inj2 st t xid).
    Proof.
      intros H. unfold do_reference. destruct xid as [|a [|f [|p [|]]]]; try (apply rel_pure; intros [x|]; [by apply run_on_rel|by apply rel_ok]).
      - apply rel_pure. intros [x|]; [|by apply rel_ok]. apply rel_pure. intros v. destruct (v ≫= as_dataset st.1); [|by apply run_on_rel].
        apply rel_pure. intros sc1. by apply (pushed_rel st.1 sc1 x (fun _ out => [out])).
      - apply rel_pure. intros v. apply rel_pure. intros r. by apply run_opt_rel.
    Qed.
    Lemma loop_keeps k : forall i st t b x cl, keeps st.1 (do_loop th n inj2 k i st t b x cl).
    Proof.
      induction k as [|k IH]; intros i st t b x cl; cbn [do_loop]; [by intros ? ?|]. apply keeps_pure. intros c. destruct (bool_decide (i < c)); [|by apply keeps_ok].
      apply keeps_pure. intros r. apply keeps_pure. intros [[d|]|]; try apply keeps_panic. intros Hs r' E.
      destruct (dset n st.1 d (B ".counter") (VInt KInt (i + 1))) as [h1| |] eqn:Ed; try done. cbn [obind] in E. apply dset_keeps in Ed; [|done].
      match type of E with ?o = Ok _ => assert (keeps h1 o) as Hk; [|by apply (Hk Ed r')] end.
      apply keeps_pure. intros sc1. apply (keeps_bind (fun r => r.1.1)); [apply (Hkeep (h1, sc1))|]. intros [st2 out]. apply keeps_pure. intros sc3.
      apply (keeps_bind (fun r => r.1.1)); [apply (IH _ (st2.1, sc3))|]. intros [st4 outs]. by apply keeps_ok.
    Qed.
    Lemma loop_rel k : forall i st t b x cl, nil_maps N st.1 -> rel (nil_loop N th n inj1 k i st t b x cl) (do_loop th n inj2 k i st t b x cl).
    Proof.
      induction k as [|k IH]; intros i st t b x cl H; cbn [do_loop nil_loop]; [by left|]. apply rel_pure. intros c. destruct (bool_decide (i < c)); [|by apply rel_ok].
      apply rel_pure. intros r. apply rel_pure. intros [[d|]|]; try done.
      pose proof (nset_rel n st.1 d (VInt KInt (i + 1)) H) as Hd. destruct (dset n st.1 d (B ".counter") (VInt KInt (i + 1))) as [h1| |] eqn:Ed; [|by rewrite Hd|rewrite Hd; by left].
      destruct Hd as [[H1 ->]|[H1 ->]]; cbn [obind].
      - apply rel_pure. intros sc1. apply (rel_bind (fun r => r.1.1)); [by apply Hinj| |]; intros [st2 out]; simpl.
        + intros H2. apply rel_pure. intros sc3. apply (rel_bind (fun r => r.1.1)); [by apply IH| |]; intros [st4 outs]; [intros H4; by apply rel_ok|by apply keeps_ok].
        + apply keeps_pure. intros sc3. apply (keeps_bind (fun r => r.1.1)); [apply (loop_keeps k _ (st2.1, sc3))|]. intros [st4 outs]. by apply keeps_ok.
      - match goal with |- rel Panic ?o => assert (keeps h1 o) as Hk end.
        { apply keeps_pure. intros sc1. apply (keeps_bind (fun r => r.1.1)); [apply (Hkeep (h1, sc1))|]. intros [st2 out]. apply keeps_pure. intros sc3.
          apply (keeps_bind (fun r => r.1.1)); [apply (loop_keeps k _ (st2.1, sc3))|]. intros [st4 outs]. by apply keeps_ok. }
        match goal with |- rel Panic ?o => destruct o as [r'| |] eqn:E end; simpl; [|done|by right]. right. split; [|done]. by apply (Hk H1 r').
    Qed.
    Lemma range_keeps st t data : keeps st.1 (do_range th n inj2 st t data).
    Proof.
      unfold do_range. destruct (two_ids data) as [d b]. apply keeps_pure. intros [x|]; [|by apply keeps_ok]. destruct st.2 as [xs|]; [|by apply keeps_ok].
      apply keeps_pure. intros cl. apply keeps_pure. intros c. destruct cl as [l|]; [destruct (bool_decide (0 < c)); [apply loop_keeps|]|]; apply keeps_pure; intros tmp; apply run_on_keeps.
    Qed.
    Lemma range_rel st t data : nil_maps N st.1 -> rel (nil_range N th n inj1 st t data) (do_range th n inj2 st t data).
    Proof.
      intros H. unfold nil_range, do_range. destruct (two_ids data) as [d b]. apply rel_pure. intros [x|]; [|by apply rel_ok]. destruct st.2 as [xs|]; [|by apply rel_ok].
      apply rel_pure. intros cl. apply rel_pure. intros c. destruct cl as [l|]; [destruct (bool_decide (0 < c)); [by apply loop_rel|]|]; apply rel_pure; intros tmp; by apply run_on_rel.
    Qed.
    Lemma condition_keeps st t data : keeps st.1 (do_condition F ord th n inj2 st t data).
    Proof.
      unfold do_condition. destruct (two_ids data) as [d b]. apply keeps_pure. intros subt. apply keeps_pure. intros value.
      apply (keeps_bind (fun r => r.1.1.1)).
      - destruct subt as [s|]; [|by apply keeps_ok]. destruct (is_nil value); [by apply keeps_ok|]. destruct (as_dataset st.1 value) as [v|].
        + apply keeps_pure. intros sc1. apply keeps_pure. intros tmp. cbn zeta. apply (keeps_bind (fun r => r.1.1)); [apply (Hkeep (st.1, sc1))|]. intros [st2 out]. apply keeps_pure. intros sc3. by apply keeps_ok.
        + apply keeps_pure. intros [|c sv]; [by apply keeps_ok|]. apply keeps_pure. intros tmp. apply (keeps_bind (fun r => r.1.1)); [apply Hkeep|]. intros [st2 out]. by apply keeps_ok.
      - intros [[st1 outs] subt1]. apply keeps_pure. intros [|]; [|by apply keeps_ok]. apply keeps_pure. intros tmp.
        apply (keeps_bind (fun r => r.1.1)); [apply (run_opt_keeps st1)|]. intros [st2 outs2]. by apply keeps_ok.
    Qed.
    Lemma condition_rel st t data : nil_maps N st.1 -> rel (do_condition F ord th n inj1 st t data) (do_condition F ord th n inj2 st t data).
    Proof.
      intros H. unfold do_condition. destruct (two_ids data) as [d b]. apply rel_pure. intros subt. apply rel_pure. intros value.
      apply (rel_bind (fun r => r.1.1.1)).
      - destruct subt as [s|]; [|by apply rel_ok]. destruct (is_nil value); [by apply rel_ok|]. destruct (as_dataset st.1 value) as [v|].
        + apply rel_pure. intros sc1. apply rel_pure. intros tmp. cbn zeta. apply (rel_bind (fun r => r.1.1)); [by apply Hinj| |]; intros [st2 out].
          * intros H2. apply rel_pure. intros sc3. by apply rel_ok.
          * apply keeps_pure. intros sc3. by apply keeps_ok.
        + apply rel_pure. intros [|c sv]; [by apply rel_ok|]. apply rel_pure. intros tmp. apply (rel_bind (fun r => r.1.1)); [by apply Hinj| |]; intros [st2 out]; [intros H2; by apply rel_ok|by apply keeps_ok].
      - intros [[st1 outs] subt1] H1. apply rel_pure. intros [|]; [|by apply rel_ok]. apply rel_pure. intros tmp.
        apply (rel_bind (fun r => r.1.1)); [by apply run_opt_rel| |]; intros [st2 outs2]; [intros H2; by apply rel_ok|by apply keeps_ok].
      - intros [[st1 outs] subt1]. apply keeps_pure. intros [|]; [|by apply keeps_ok]. apply keeps_pure. intros tmp.
        apply (keeps_bind (fun r => r.1.1)); [apply (run_opt_keeps st1)|]. intros [st2 outs2]. by apply keeps_ok.
    Qed.
    Lemma param_keeps st t p : keeps st.1 (do_param F ord th n lg inj2 st t p).
    Proof.
      unfold do_param. repeat (match goal with |- context [bool_decide (p_type p = ?X)] => destruct (bool_decide (p_type p = X)) end; [|]);
        try (by apply keeps_ok); try apply reference_keeps; try apply range_keeps; try apply condition_keeps.
      - destruct st.2; [|by apply keeps_ok]. apply keeps_pure. intros d. by apply keeps_ok.
      - destruct st.2 as [[|d xs]|]; try by apply keeps_ok. destruct (bool_decide _); [|by apply keeps_ok]. apply keeps_pure. intros s. by apply keeps_ok.
    Qed.
    Lemma param_rel st t p : nil_maps N st.1 -> rel (nil_param N F ord th n lg inj1 st t p) (do_param F ord th n lg inj2 st t p).
    Proof.
      intros H. unfold nil_param. destruct (bool_decide (p_type p = MRange)) eqn:E.
      - apply bool_decide_eq_true in E. unfold do_param. rewrite E. simpl. by apply range_rel.
      - unfold do_param. rewrite E. repeat (match goal with |- context [bool_decide (p_type p = ?X)] => destruct (bool_decide (p_type p = X)) end; [|]);
          try (by apply rel_ok); try (by apply reference_rel); try (by apply condition_rel).
        + destruct st.2; [|by apply rel_ok]. apply rel_pure. intros d. by apply rel_ok.
        + destruct st.2 as [[|d xs]|]; try by apply rel_ok. match goal with |- context [bool_decide ?X] => destruct (bool_decide X) end; [|by apply rel_ok]. apply rel_pure. intros s. by apply rel_ok.
    Qed.
    Lemma params_keeps ps : forall st t, keeps st.1 (do_params F ord th n lg inj2 st t ps).
    Proof.
      induction ps as [|p ps IH]; intros st t; simpl; [by apply keeps_ok|]. apply (keeps_bind (fun r => r.1.1)); [apply param_keeps|]. intros [st1 a].
      apply (keeps_bind (fun r => r.1.1)); [apply (IH st1)|]. intros [st2 b]. by apply keeps_ok.
    Qed.
    Lemma params_rel ps : forall st t, nil_maps N st.1 -> rel (nil_params N F ord th n lg inj1 st t ps) (do_params F ord th n lg inj2 st t ps).
    Proof.
      induction ps as [|p ps IH]; intros st t H; cbn [nil_params do_params]; [by apply rel_ok|]. apply (rel_bind (fun r => r.1.1)); [by apply param_rel| |]; intros [st1 a].
      - intros H1. apply (rel_bind (fun r => r.1.1)); [by apply IH| |]; intros [st2 b]; [intros H2; by apply rel_ok|by apply keeps_ok].
      - apply (keeps_bind (fun r => r.1.1)); [apply (params_keeps ps st1)|]. intros [st2 b]. by apply keeps_ok.
    Qed.
  End Body.
  Lemma injector_keeps n lg : forall st t, keeps st.1 (injector F ord th n lg st t).
  Proof.
    induction n as [|n IH]; intros st t; simpl; [by intros ? ?|]. destruct (th !! t) as [T|]; [|by intros ? ?]. destruct (t_root T); [|by apply keeps_ok].
    apply (keeps_bind (fun r => r.1.1)); [by apply params_keeps|]. intros [st1 outs]. by apply keeps_ok.
  Qed.
  Lemma injector_rel n lg : forall st t, nil_maps N st.1 -> rel (nil_injector N F ord th n lg st t) (injector F ord th n lg st t).
  Proof.
    induction n as [|n IH]; intros st t H; cbn [nil_injector injector]; [by left|]. destruct (th !! t) as [T|]; [|done]. destruct (t_root T); [|by apply rel_ok].
    apply (rel_bind (fun r => r.1.1)); [apply params_rel; [done|apply injector_keeps|done]| |]; intros [st1 outs]; [intros; by apply rel_ok|by apply keeps_ok].
  Qed.
  Lemma execute_rel n h t data : nil_maps N h -> relp fst (nil_execute N F ord langs th n h t data) (execute F ord langs th n h t data).
  Proof.
    intros H. unfold nil_execute, execute. destruct data as [d|].
    - apply rel_pure. intros r. cbn zeta. apply (rel_bind (fun r => r.1.1)); [by apply injector_rel| |]; intros [st out]; [intros; by apply rel_ok|by apply keeps_ok].
    - apply (rel_bind (fun r => r.1.1)); [by apply injector_rel| |]; intros [st out]; [intros; by apply rel_ok|by apply keeps_ok].
  Qed.
  Theorem execute_ok n h t data h' out : nil_maps N h ->
    nil_execute N F ord langs th n h t data = Ok (h', out) <-> execute F ord langs th n h t data = Ok (h', out) /\ nil_maps N h'.
  Proof.
    intros H. pose proof (execute_rel n h t data H) as Hr. destruct (execute F ord langs th n h t data) as [r| |]; simpl in Hr.
    - destruct Hr as [[Hn ->]|[Hs ->]]; split; [intros [= ->]; done|by intros [[= ->] _]|done|]. intros [[= ->] Hn]. by destruct (spoiled_not_nil _ Hs).
    - rewrite Hr. naive_solver.
    - destruct Hr as [-> | ->]; naive_solver.
  Qed.
  Theorem execute_panics n h t data : nil_maps N h ->
    (forall h' out, execute F ord langs th n h t data = Ok (h', out) -> ~ nil_maps N h' -> nil_execute N F ord langs th n h t data = Panic) /\
    (execute F ord langs th n h t data = Panic -> nil_execute N F ord langs th n h t data = Panic).
  Proof.
    intros H. pose proof (execute_rel n h t data H) as Hr. split.
    - intros h' out E Hn. rewrite E in Hr. by destruct Hr as [[? _]|[_ ?]].
    - intros E. by rewrite E in Hr.
  Qed.
End Execute.

