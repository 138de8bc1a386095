(** * Executions at the same time: a goroutine that is alone (C112). *)
From Verif Require Import GoBase GoStrings DatasetModel LangModel TemplateModel ParModel.
Local Open Scope Z_scope.

Lemma alone_bind {A C} (m : act A) (f : A -> act C) h : alone (abind m f) h = ('(h1, a) <-! alone m h; alone (f a) h1).
Proof. revert h. induction m as [a| | |w k IH]; intros h; [done..|]. cbn [abind alone]. apply IH. Qed.
Lemma alone_lift {A} (r : outcome A) h : alone (lift r) h = (a <-! r; Ok (h, a)).
Proof. by destruct r. Qed.
Lemma alone_read {A} (f : heap -> outcome A) h : alone (read f) h = (a <-! f h; Ok (h, a)).
Proof. unfold read. cbn [alone]. apply alone_lift. Qed.
Lemma alone_write (f : heap -> outcome heap) h : alone (write f) h = (h1 <-! f h; Ok (h1, tt)).
Proof. unfold write. cbn [alone]. by destruct (f h). Qed.

Notation stack := (option (list loc)).
(** The state in the order of TemplateModel.v. *)
Definition packed {X} (q : outcome (heap * stack * X)) : outcome (heap * (stack * X)) :=
  match q with Ok ((h, sc), x) => Ok (h, (sc, x)) | Panic => Panic | NoFuel => NoFuel end.
Section Alone.
  Context (F : golib) (ord : heap -> gmap bytes value -> list (bytes * value)) (langs : nat -> option lang) (th : theap).
  Lemma alone_search n back key h : alone (p_search n back key) h = (r <-! search n h (map Some back) key; Ok (h, r)).
  Proof.
    induction back as [|d back IH]; [done|]. cbn [p_search map search]. rewrite alone_bind, alone_read.
    destruct (dget n h d key) as [[v|]| |]; cbn [obind]; [done|apply IH|done..].
  Qed.
  Lemma alone_data n xs key h : alone (p_data n xs key) h = (r <-! stack_data n h xs key; Ok (h, r)).
  Proof. apply alone_search. Qed.
  Lemma alone_string n xs key h : alone (p_string F ord n xs key) h = (r <-! stack_string F ord n h xs key; Ok (h, r)).
  Proof.
    unfold p_string, stack_string. rewrite alone_bind, alone_data. destruct (stack_data n h xs key) as [[[]|]| |]; cbn [obind]; try done; by rewrite alone_read.
  Qed.
  Lemma alone_collection n xs key h : alone (p_collection n xs key) h = (r <-! stack_collection n h xs key; Ok (h, r)).
  Proof. unfold p_collection, stack_collection. rewrite alone_bind, alone_data. by destruct (stack_data n h xs key). Qed.
  Lemma alone_non_nil {A} sc (f : list loc -> act A) g h : (forall xs, alone (f xs) h = (r <-! g xs; Ok (h, r))) ->
    alone (p_non_nil sc f) h = (r <-! non_nil sc g; Ok (h, r)).
  Proof. intros H. destruct sc as [xs|]; [apply H|done]. Qed.

  Section Body.
    Context (n : nat) (lg : option lang) (pinj : stack -> loc -> act (stack * bytes)) (inj : heap * stack -> loc -> outcome (heap * stack * bytes)).
    Context (Hinj : forall sc t h, alone (pinj sc t) h = packed (inj (h, sc) t)).
    Lemma alone_run sc t h : alone (p_run pinj sc t) h = packed (run_on inj (h, sc) t).
    Proof. unfold p_run, run_on. rewrite alone_bind, Hinj. by destruct (inj (h, sc) t) as [[[h1 sc1] out]| |]. Qed.
    Lemma alone_run_opt sc t h : alone (p_run_opt pinj sc t) h = packed (run_opt inj (h, sc) t).
    Proof. destruct t; [apply alone_run|done]. Qed.
    Lemma alone_reference sc t xid h : alone (p_reference F ord th n pinj sc t xid) h = packed (do_reference F ord th n inj (h, sc) t xid).
    Proof.
      assert (Hgen : forall template, alone (r <~ lift (lookup_template th n t template); match r with None => Ret (sc, []) | Some subt => p_run pinj sc subt end) h =
        packed (r <-! lookup_template th n t template; match r with None => Ok ((h, sc), []) | Some subt => run_on inj (h, sc) subt end)).
      { intros template. rewrite alone_bind, alone_lift. destruct (lookup_template th n t template) as [[x|]| |]; cbn [obind]; try done. apply alone_run. }
      unfold p_reference, do_reference. destruct xid as [|a [|field [|prefix [|e xid]]]]; [apply Hgen|apply Hgen| | |apply Hgen].
      - rewrite alone_bind, alone_lift. destruct (lookup_template th n t a) as [[x|]| |]; cbn [obind]; try done.
        rewrite alone_bind, (alone_non_nil _ _ (fun xs => stack_data n h xs field)) by (intros; apply alone_data). cbn [fst snd].
        destruct (non_nil sc _) as [v| |]; cbn [obind]; try done. rewrite alone_bind, alone_read. cbn [obind].
        destruct (v ≫= as_dataset h) as [d|]; [|apply alone_run].
        rewrite alone_bind, alone_lift. destruct (spush sc d) as [sc1| |]; cbn [obind]; try done.
        rewrite alone_bind, Hinj. destruct (inj (h, sc1) x) as [[[h2 sc2] out]| |]; cbn [obind packed fst snd]; try done.
        rewrite alone_bind, alone_lift. by destruct (spop sc2).
      - rewrite alone_bind, (alone_non_nil _ _ (fun xs => stack_string F ord n h xs field)) by (intros; apply alone_string). cbn [fst snd].
        destruct (non_nil sc _) as [v| |]; cbn [obind]; try done. rewrite alone_bind, alone_lift.
        destruct (try_names th n t _) as [r| |]; cbn [obind]; try done. apply alone_run_opt.
    Qed.
    Lemma try_app t l1 l2 : try_names th n t (l1 ++ l2) = (r <-! try_names th n t l1; match r with Some x => Ok (Some x) | None => try_names th n t l2 end).
    Proof. induction l1 as [|a l1 IH]; [done|]. cbn [try_names app]. destruct (lookup_template th n t a) as [[x|]| |]; cbn [obind]; done. Qed.
    Lemma alone_loop k : forall i sc t subid subt cl h, alone (p_loop th n pinj k i sc t subid subt cl) h = packed (do_loop th n inj k i (h, sc) t subid subt cl).
    Proof.
      induction k as [|k IH]; intros i sc t subid subt cl h; [done|]. cbn [p_loop do_loop]. rewrite alone_bind, alone_read. cbn [fst snd].
      destruct (ccount h cl) as [c| |] eqn:Ec; cbn [obind]; try done. destruct (bool_decide (i < c)); [|done].
      rewrite alone_bind, alone_lift. rewrite (app_assoc [dot subid (B "key." ++ itoa i)] (if bool_decide (i = 0) then [dot subid (B "first")] else [])). set (l1 := ([dot subid (B "key." ++ itoa i)] ++ (if bool_decide (i = 0) then [dot subid (B "first")] else []))). rewrite try_app.
      destruct (try_names th n t l1) as [r1| |]; cbn [obind]; try done. rewrite alone_bind.
      replace (alone (match r1 with Some x => Ret (Some x) | None => _ end) h) with
        (r <-! (match r1 with Some x => Ok (Some x) | None => try_names th n t ((if bool_decide (i = c - 1) then [dot subid (B "last")] else []) ++
                 (if bool_decide (Z.rem i 2 = 0) then [dot subid (B "even")] else [])) end); Ok (h, r)).
      2:{ destruct r1; [done|]. rewrite alone_bind, alone_read, Ec. cbn [obind]. by rewrite alone_lift. }
      destruct (match r1 with Some x => Ok (Some x) | None => _ end) as [r| |]; cbn [obind]; try done.
      rewrite alone_bind, alone_read. destruct (cget h cl i) as [[[d|]|]| |]; cbn [obind]; try done.
      rewrite alone_bind, alone_write. destruct (dset n h d _ _) as [h1| |]; cbn [obind]; try done.
      rewrite alone_bind, alone_lift. destruct (spush sc d) as [sc1| |]; cbn [obind]; try done.
      rewrite alone_bind, Hinj. destruct (inj (h1, sc1) _) as [[[h2 sc2] out]| |]; cbn [obind packed fst snd]; try done.
      rewrite alone_bind, alone_lift. destruct (spop sc2) as [sc3| |]; cbn [obind]; try done.
      rewrite alone_bind, IH. by destruct (do_loop th n inj k (i + 1) (h2, sc3) t subid subt cl) as [[[h4 sc4] outs]| |].
    Qed.
    Lemma alone_range sc t data h : alone (p_range th n pinj sc t data) h = packed (do_range th n inj (h, sc) t data).
    Proof.
      unfold p_range, do_range. destruct (two_ids data) as [subdata subid]. rewrite alone_bind, alone_lift. cbn [fst snd].
      destruct (lookup_template th n t subid) as [[subt|]| |]; cbn [obind]; try done; try (by destruct sc). destruct sc as [xs|]; [|done].
      rewrite alone_bind, alone_collection. destruct (stack_collection n h xs subdata) as [cl| |]; cbn [obind]; try done.
      assert (Hnone : alone (tmp <~ lift (try_names th n t [dot subid (B "none")]); p_run pinj (Some xs) (match tmp with Some x => x | None => subt end)) h =
        packed (tmp <-! try_names th n t [dot subid (B "none")]; run_on inj (h, Some xs) (match tmp with Some x => x | None => subt end))).
      { rewrite alone_bind, alone_lift. destruct (try_names th n t _) as [r| |]; cbn [obind]; try done. apply alone_run. }
      destruct cl as [l|]; [|apply Hnone]. rewrite alone_bind, alone_read. destruct (ccount h l) as [c| |]; cbn [obind]; try done.
      destruct (bool_decide (0 < c)); [apply alone_loop|apply Hnone].
    Qed.
    Lemma alone_condition sc t data h : alone (p_condition F ord th n pinj sc t data) h = packed (do_condition F ord th n inj (h, sc) t data).
    Proof.
      unfold p_condition, do_condition. destruct (two_ids data) as [subdata subid]. rewrite alone_bind, alone_lift. cbn [fst snd].
      destruct (lookup_template th n t subid) as [subt| |]; cbn [obind]; try done. rewrite alone_bind.
      assert (Hv : alone (match sc with Some xs => r <~ p_data n xs subdata; Ret (match r with Some v => v | None => VNil end) | None => Ret VNil end) h =
        (v <-! match sc with Some xs => r <-! stack_data n h xs subdata; Ok (match r with Some v => v | None => VNil end) | None => Ok VNil end; Ok (h, v))).
      { destruct sc as [xs|]; [|done]. rewrite alone_bind, alone_data. by destruct (stack_data n h xs subdata). }
      rewrite Hv. clear Hv. destruct (match sc with Some xs => _ | None => _ end) as [value| |]; cbn [obind]; try done.
      assert (Hrest : forall h1 sc1 outs subt1,
        alone (empty <~ (if is_nil value then Ret true else read (fun h => s <-! sprint F ord n h value; Ok (match s with [] => true | _ => false end)));
          if (empty : bool) then tmp <~ lift (lookup_template th n t (dot subid (B "none"))); '(sc2, outs2) <~ p_run_opt pinj sc1 (match tmp with Some x => Some x | None => subt1 end);
            Ret (sc2, outs ++ outs2) else Ret (sc1, outs)) h1 =
        packed (empty <-! (if is_nil value then Ok true else s <-! sprint F ord n h1 value; Ok (match s with [] => true | _ => false end));
          if (empty : bool) then tmp <-! lookup_template th n t (dot subid (B "none")); '(st2, outs2) <-! run_opt inj (h1, sc1) (match tmp with Some x => Some x | None => subt1 end);
            Ok (st2, outs ++ outs2) else Ok ((h1, sc1), outs))).
      { intros h1 sc1 outs subt1. rewrite alone_bind.
        assert (He : alone (if is_nil value then Ret true else read (fun h => s <-! sprint F ord n h value; Ok (match s with [] => true | _ => false end))) h1 =
          (b <-! (if is_nil value then Ok true else s <-! sprint F ord n h1 value; Ok (match s with [] => true | _ => false end)); Ok (h1, b))).
        { destruct (is_nil value); [done|]. by rewrite alone_read. }
        rewrite He. clear He. destruct (if is_nil value then _ else _) as [[|]| |]; cbn [obind]; try done.
        rewrite alone_bind, alone_lift. destruct (lookup_template th n t _) as [tmp| |]; cbn [obind]; try done.
        rewrite alone_bind, alone_run_opt. by destruct (run_opt inj (h1, sc1) _) as [[[h2 sc2] o]| |]. }
      destruct subt as [s|]; [|apply Hrest]. destruct (is_nil value) eqn:Hnil; [apply Hrest|].
      rewrite alone_bind, alone_bind, alone_read. cbn [obind]. destruct (as_dataset h value) as [d|].
      - rewrite alone_bind, alone_lift. destruct (spush sc d) as [sc1| |]; cbn [obind]; try done.
        rewrite alone_bind, alone_lift. destruct (lookup_template th n t (dot subid (B "array"))) as [tmp| |]; cbn [obind]; try done.
        cbv zeta. rewrite alone_bind, Hinj. destruct (inj (h, sc1) _) as [[[h2 sc2] out]| |]; cbn [obind packed fst snd]; try done.
        rewrite alone_bind, alone_lift. destruct (spop sc2) as [sc3| |]; cbn [obind]; try done. apply Hrest.
      - rewrite alone_bind, alone_read. destruct (sprint F ord n h value) as [[|c svalue]| |]; cbn [obind]; try done; [apply Hrest|].
        rewrite alone_bind, alone_lift. destruct (lookup_template th n t (dot subid (c :: svalue))) as [tmp| |]; cbn [obind]; try done.
        cbv zeta. rewrite alone_bind, Hinj. destruct (inj (h, sc) _) as [[[h2 sc2] out]| |]; cbn [obind packed]; try done. apply Hrest.
    Qed.
    Lemma alone_param sc t p h : alone (p_param F ord th n lg pinj sc t p) h = packed (do_param F ord th n lg inj (h, sc) t p).
    Proof.
      unfold p_param, do_param. cbn [fst snd]. destruct (bool_decide _); [done|]. destruct (bool_decide _); [done|]. destruct (bool_decide _); [done|].
      destruct (bool_decide _); [apply alone_reference|]. destruct (bool_decide _).
      { destruct sc as [xs|]; [|done]. rewrite alone_bind, alone_string. by destruct (stack_string F ord n h xs _). }
      destruct (bool_decide _); [apply alone_range|]. destruct (bool_decide _); [apply alone_condition|]. destruct (bool_decide _); [|done].
      destruct sc as [[|d xs]|]; [done| |done]. destruct (bool_decide _); [|done]. rewrite alone_bind, alone_read. by destruct (show F ord n h true d).
    Qed.
    Lemma alone_params ps : forall sc t h, alone (p_params F ord th n lg pinj sc t ps) h = packed (do_params F ord th n lg inj (h, sc) t ps).
    Proof.
      induction ps as [|p ps IH]; intros sc t h; [done|]. cbn [p_params do_params]. rewrite alone_bind, alone_param.
      destruct (do_param F ord th n lg inj (h, sc) t p) as [[[h1 sc1] a]| |]; cbn [obind packed]; try done. rewrite alone_bind, IH.
      by destruct (do_params F ord th n lg inj (h1, sc1) t ps) as [[[h2 sc2] b]| |].
    Qed.
  End Body.
  Lemma alone_injector n : forall lg sc t h, alone (p_injector F ord th n lg sc t) h = packed (injector F ord th n lg (h, sc) t).
  Proof.
    induction n as [|n IH]; intros lg sc t h; [done|]. cbn [p_injector injector]. destruct (th !! t) as [T|]; [|done]. destruct (t_root T) as [ps|]; [|done].
    rewrite alone_bind, (alone_params n lg _ (injector F ord th n lg)) by (intros; apply IH).
    by destruct (do_params F ord th n lg _ (h, sc) t ps) as [[[h1 sc1] outs]| |].
  Qed.
  Lemma alone_execute n t data h : alone (p_execute F ord langs th n t data) h = execute F ord langs th n h t data.
  Proof.
    unfold p_execute, execute. destruct data as [d|].
    - rewrite alone_bind, alone_read. destruct (dget n h d (B "#")) as [r| |]; cbn [obind]; try done. rewrite alone_bind, alone_injector.
      by destruct (injector F ord th n _ (h, Some [d]) t) as [[[h1 sc1] out]| |].
    - rewrite alone_bind, alone_injector. by destruct (injector F ord th n None (h, None) t) as [[[h1 sc1] out]| |].
  Qed.
End Alone.
