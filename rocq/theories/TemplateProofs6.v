(** * Execution: fuel, simulations between template heaps, comments, plain text. *)
From Verif Require Import GoBase GoStrings GoStringsProofs Regex DatasetModel LangModel DatasetSpec DatasetProofs DatasetProofs2 DatasetProofs3
  TemplateModel TemplateSpec TemplateProofs2 TemplateProofs3 TemplateProofs4 TemplateProofs5.
Local Open Scope Z_scope.

(** [b] is a result related to [a], or [a] ran out of fuel. *)
Definition orel {A C} (P : A -> C -> Prop) (a : outcome A) (b : outcome C) : Prop :=
  a = NoFuel \/ (a = Panic /\ b = Panic) \/ exists x y, a = Ok x /\ b = Ok y /\ P x y.
Lemma orel_bind {A C D E} (P : A -> C -> Prop) (Q : D -> E -> Prop) a b f g :
  orel P a b -> (forall x y, P x y -> orel Q (f x) (g y)) -> orel Q (obind a f) (obind b g).
Proof. intros [->|[[-> ->]|(x & y & -> & -> & H)]] Hf; [by left|right; by left|by apply Hf]. Qed.
Lemma orel_ok {A C} (P : A -> C -> Prop) x y : P x y -> orel P (Ok x) (Ok y).
Proof. intros H. right. right. by exists x, y. Qed.
Lemma orel_panic {A C} (P : A -> C -> Prop) : orel P Panic Panic.
Proof. right. by left. Qed.
Lemma orel_nofuel {A C} (P : A -> C -> Prop) b : orel P NoFuel b.
Proof. by left. Qed.
Lemma orel_refl {A} (a : outcome A) : orel eq a a.
Proof. destruct a; [by apply orel_ok|apply orel_panic|by left]. Qed.
Lemma orel_mono {A} (a b : outcome A) : (a <> NoFuel -> b = a) -> orel eq a b.
Proof. intros H. destruct a; [rewrite H by done|rewrite H by done|by left]; apply orel_refl. Qed.
Lemma orel_eq {A} (a b : outcome A) : orel eq a b -> orel eq b a -> a = b.
Proof.
  intros [->|[[-> ->]|(x & y & -> & -> & ->)]]; [|done|done].
  intros [->|[[-> H]|(x & y & -> & H & ->)]]; done.
Qed.
Lemma orel_ok_inv {A} (x : A) b : orel eq (Ok x) b -> b = Ok x.
Proof. intros [|[[? _]|(? & ? & [= <-] & -> & <-)]]; done. Qed.

(** Not a comment. *)
Definition shown (p : param) : bool := bool_decide (p_type p <> MComment).
Lemma do_params_shown F ord th n lg inj st t ps : do_params F ord th n lg inj st t (List.filter shown ps) = do_params F ord th n lg inj st t ps.
Proof.
  revert st. induction ps as [|p ps IH]; intros st; [done|]. simpl. unfold shown at 1. case_bool_decide as Hp.
  - simpl. destruct (do_param _ _ _ _ _ _ _ _ _) as [[st1 a]| |]; try done. simpl. by rewrite IH.
  - unfold do_param at 1. rewrite Hp. rewrite bool_decide_eq_false_2 by done.
    rewrite bool_decide_eq_true_2 by done. simpl. rewrite IH. by destruct (do_params _ _ _ _ _ _ _ _ _) as [[st2 b]| |].
Qed.
Lemma dset_mono n n' h d k v : (n <= n')%nat -> dset n h d k v <> NoFuel -> dset n' h d k v = dset n h d k v.
Proof.
  unfold dset. revert d n'. induction n as [|n IH]; intros d n' Hn; simpl; [done|]. destruct n' as [|n']; [lia|]. simpl.
  destruct (h !! d) as [[m|[d'|]|xs|xs]|]; try done. apply IH. lia.
Qed.
Section Sim.
  Context (F : golib) (ord : heap -> gmap bytes value -> list (bytes * value)) (langs : nat -> option lang).
  Context (th th' : theap) (R : loc -> loc -> Prop).
  Definition same_answer (r r' : option loc) : Prop :=
    match r, r' with None, None => True | Some x, Some x' => R x x' | _, _ => False end.
  Definition same_root (T T' : tmpl) : Prop :=
    match t_root T, t_root T' with
    | None, None => True
    | Some ps, Some ps' => List.filter shown ps = List.filter shown ps'
    | _, _ => False
    end.
  Definition lookups (n n' : nat) : Prop :=
    forall t t' name, R t t' -> orel same_answer (get_template n th t name) (get_template n' th' t' name).

  Section Body.
    Context (n n' : nat) (Hn : (n <= n')%nat) (lg : option lang).
    (** [Q] relates the templates from which names are looked up, [R] the ones that are found. *)
    Context (Q : loc -> loc -> Prop) (HL : forall t t' name, Q t t' -> orel same_answer (get_template n th t name) (get_template n' th' t' name)).
    Context (inj inj' : heap * option (list loc) -> loc -> outcome (heap * option (list loc) * bytes)).
    Context (Hinj : forall st t t', R t t' -> orel eq (inj st t) (inj' st t')).
    Lemma dget_sim h d key : orel eq (dget n h d key) (dget n' h d key).
    Proof. apply orel_mono. intros H. by apply (dget_mono n n'). Qed.
    Lemma search_sim h xs key : orel eq (search n h xs key) (search n' h xs key).
    Proof.
      induction xs as [|[d|] xs IH]; simpl; [apply orel_refl| |apply orel_refl].
      eapply orel_bind; [apply dget_sim|]. intros r ? <-. destruct r; [apply orel_refl|done].
    Qed.
    Lemma sprint_sim h v : orel eq (sprint F ord n h v) (sprint F ord n' h v).
    Proof. apply orel_mono. intros H. by apply (sprint_mono F ord n n'). Qed.
    Lemma show_sim h go d : orel eq (show F ord n h go d) (show F ord n' h go d).
    Proof. apply orel_mono. intros H. by apply (show_mono F ord n n'). Qed.
    Lemma stack_string_sim h xs key : orel eq (stack_string F ord n h xs key) (stack_string F ord n' h xs key).
    Proof.
      unfold stack_string, stack_data. eapply orel_bind; [apply search_sim|]. intros r ? <-.
      destruct r as [[]|]; try apply orel_refl; apply sprint_sim.
    Qed.
    Lemma dset_sim h d k v : orel eq (dset n h d k v) (dset n' h d k v).
    Proof. apply orel_mono. intros H. by apply (dset_mono n n'). Qed.
    Lemma run_on_sim st t t' : R t t' -> orel eq (run_on inj st t) (run_on inj' st t').
    Proof. intros H. unfold run_on. eapply orel_bind; [by apply Hinj|]. intros [st1 out] ? <-. apply orel_refl. Qed.
    Lemma run_opt_sim st t t' : same_answer t t' -> orel eq (run_opt inj st t) (run_opt inj' st t').
    Proof. intros H. destruct t, t'; try done; [by apply run_on_sim|apply orel_refl]. Qed.
    Lemma try_names_sim t t' names : Q t t' -> orel same_answer (try_names th n t names) (try_names th' n' t' names).
    Proof.
      intros H. induction names as [|x names IH]; simpl; [by apply orel_ok|].
      eapply orel_bind; [by apply HL|]. intros [y|] [y'|] Hy; try done. by apply orel_ok.
    Qed.
    Lemma non_nil_sim {A} sc (f g : list loc -> outcome A) : (forall xs, orel eq (f xs) (g xs)) -> orel eq (non_nil sc f) (non_nil sc g).
    Proof. intros H. destruct sc; [apply H|apply orel_panic]. Qed.
    (** Rendering with another dataset on the stack. *)
    Lemma inner_sim {A} h sc d t t' (k : (heap * option (list loc)) * bytes -> option (list loc) -> outcome A) : R t t' ->
      orel eq (sc1 <-! spush sc d; '(st2, out) <-! inj (h, sc1) t; sc3 <-! spop st2.2; k (st2, out) sc3)
              (sc1 <-! spush sc d; '(st2, out) <-! inj' (h, sc1) t'; sc3 <-! spop st2.2; k (st2, out) sc3).
    Proof.
      intros H. eapply orel_bind; [apply orel_refl|]. intros sc1 ? <-. eapply orel_bind; [by apply Hinj|].
      intros [st2 out] ? <-. apply orel_refl.
    Qed.
    Lemma do_reference_sim st t t' xid : Q t t' -> orel eq (do_reference F ord th n inj st t xid) (do_reference F ord th' n' inj' st t' xid).
    Proof.
      intros H. unfold do_reference.
      assert (Hgen : forall template, orel eq
        (r <-! lookup_template th n t template; match r with None => Ok (st, []) | Some subt => run_on inj st subt end)
        (r <-! lookup_template th' n' t' template; match r with None => Ok (st, []) | Some subt => run_on inj' st subt end)).
      { intros template. eapply orel_bind; [by apply HL|]. intros [x|] [x'|] Hx; try done; [by apply run_on_sim|apply orel_refl]. }
      destruct xid as [|a [|field [|prefix [|e xid]]]]; [apply Hgen|apply Hgen| | |apply Hgen].
      - eapply orel_bind; [by apply HL|]. intros [x|] [x'|] Hx; try done; [|apply orel_refl].
        eapply orel_bind; [apply non_nil_sim; intros xs; apply search_sim|]. intros v ? <-.
        destruct (v ≫= as_dataset st.1) as [d|]; [|by apply run_on_sim].
        by apply (inner_sim _ _ _ _ _ (fun q sc3 => Ok ((q.1.1, sc3), [q.2]))).
      - eapply orel_bind; [apply non_nil_sim; intros xs; apply stack_string_sim|]. intros v ? <-.
        eapply orel_bind; [by apply try_names_sim|]. intros r r' Hr. by apply run_opt_sim.
    Qed.
    Lemma do_loop_sim k k' i st t t' subid subt subt' cl : (k <= k')%nat -> Q t t' -> R subt subt' ->
      orel eq (do_loop th n inj k i st t subid subt cl) (do_loop th' n' inj' k' i st t' subid subt' cl).
    Proof.
      intros Hk Ht Hs. revert k' i st Hk. induction k as [|k IH]; intros k' i st Hk; cbn [do_loop]; [by left|].
      destruct k' as [|k']; [lia|]. cbn [do_loop].
      eapply orel_bind; [apply orel_refl|]. intros c ? <-. destruct (bool_decide (i < c)); [|apply orel_refl].
      eapply orel_bind; [by apply try_names_sim|]. intros r r' Hr.
      eapply orel_bind; [apply orel_refl|]. intros e ? <-. destruct e as [[d|]|]; try apply orel_panic.
      eapply orel_bind; [apply dset_sim|]. intros h1 ? <-.
      eapply orel_bind; [apply orel_refl|]. intros sc1 ? <-.
      eapply orel_bind; [apply Hinj; by destruct r, r'|]. intros [st2 out] ? <-.
      eapply orel_bind; [apply orel_refl|]. intros sc3 ? <-.
      eapply orel_bind; [apply IH; lia|]. intros [st4 outs] ? <-. apply orel_refl.
    Qed.
    Lemma do_range_sim st t t' data : Q t t' -> orel eq (do_range th n inj st t data) (do_range th' n' inj' st t' data).
    Proof.
      intros H. unfold do_range. destruct (two_ids data) as [subdata subid].
      eapply orel_bind; [by apply HL|]. intros [x|] [x'|] Hx; try done; [|destruct (st.2); apply orel_refl].
      destruct (st.2) as [xs|]; [|apply orel_refl].
      eapply orel_bind; [unfold stack_collection, stack_data; eapply orel_bind; [apply search_sim|intros r ? <-; apply orel_refl]|].
      intros cl ? <-. eapply orel_bind; [apply orel_refl|]. intros c ? <-.
      assert (Hnone : orel eq
        (tmp <-! try_names th n t [dot subid (B "none")]; run_on inj st (match tmp with Some x => x | None => x end))
        (tmp <-! try_names th' n' t' [dot subid (B "none")]; run_on inj' st (match tmp with Some x => x | None => x' end))).
      { eapply orel_bind; [by apply try_names_sim|]. intros r r' Hr. apply run_on_sim. by destruct r, r'. }
      destruct cl as [l|]; [|exact Hnone]. destruct (bool_decide (0 < c)); [|exact Hnone]. by apply do_loop_sim.
    Qed.
    Lemma do_condition_sim st t t' data : Q t t' -> orel eq (do_condition F ord th n inj st t data) (do_condition F ord th' n' inj' st t' data).
    Proof.
      intros H. unfold do_condition. destruct (two_ids data) as [subdata subid].
      eapply orel_bind; [by apply HL|]. intros x x' Hx.
      eapply (orel_bind eq); [destruct (st.2); [eapply orel_bind; [apply search_sim|intros r ? <-; apply orel_refl]|apply orel_refl]|].
      intros value ? <-.
      eapply (orel_bind (fun a b => a.1 = b.1 /\ same_answer a.2 b.2)).
      - destruct x as [s|], x' as [s'|]; try done; [|by apply orel_ok].
        destruct (is_nil value); [by apply orel_ok|].
        destruct (as_dataset st.1 value) as [d|].
        + eapply orel_bind; [apply orel_refl|]. intros sc1 ? <-.
          eapply orel_bind; [by apply HL|]. intros r r' Hr.
          eapply orel_bind; [apply Hinj; by destruct r, r'|]. intros [st2 out] ? <-.
          eapply orel_bind; [apply orel_refl|]. intros sc3 ? <-. apply orel_ok. split; [done|]. by destruct r, r'.
        + eapply orel_bind; [apply sprint_sim|]. intros svalue ? <-. destruct svalue as [|c svalue]; [by apply orel_ok|].
          eapply orel_bind; [by apply HL|]. intros r r' Hr.
          eapply orel_bind; [apply Hinj; by destruct r, r'|]. intros [st2 out] ? <-. apply orel_ok. split; [done|]. by destruct r, r'.
      - intros [[st1 outs] s1] [[st1' outs'] s1'] [[= <- <-] Hs]. cbn [fst snd] in Hs.
        eapply (orel_bind eq); [destruct (is_nil value); [apply orel_refl|]; eapply orel_bind; [apply sprint_sim|intros r ? <-; apply orel_refl]|].
        intros em ? <-. destruct em; [|apply orel_refl].
        eapply orel_bind; [by apply HL|]. intros r r' Hr.
        eapply orel_bind; [apply run_opt_sim; by destruct r, r'|]. intros [st2 outs2] ? <-. apply orel_refl.
    Qed.
    Lemma do_param_sim st t t' p : Q t t' -> orel eq (do_param F ord th n lg inj st t p) (do_param F ord th' n' lg inj' st t' p).
    Proof.
      intros H. unfold do_param. repeat (case_bool_decide; [try apply orel_refl|]); try apply orel_refl.
      - by apply do_reference_sim.
      - destruct (st.2); [|apply orel_refl]. eapply orel_bind; [apply stack_string_sim|]. intros d ? <-. apply orel_refl.
      - by apply do_range_sim.
      - by apply do_condition_sim.
      - destruct (st.2) as [[|d xs]|]; try apply orel_refl.
        eapply orel_bind; [apply show_sim|]. intros s ? <-. apply orel_refl.
    Qed.
    Lemma do_params_sim st t t' ps : Q t t' -> orel eq (do_params F ord th n lg inj st t ps) (do_params F ord th' n' lg inj' st t' ps).
    Proof.
      intros H. revert st. induction ps as [|p ps IH]; intros st; simpl; [apply orel_refl|].
      eapply orel_bind; [by apply do_param_sim|]. intros [st1 a] ? <-.
      eapply orel_bind; [apply IH|]. intros [st2 b] ? <-. apply orel_refl.
    Qed.
  End Body.
  Lemma injector_sim n n' lg st t t' : (n <= n')%nat -> (forall k k', (k <= k')%nat -> lookups k k') ->
    (forall t t', R t t' -> match th !! t, th' !! t' with Some T, Some T' => same_root T T' | None, None => True | _, _ => False end) ->
    R t t' -> orel eq (injector F ord th n lg st t) (injector F ord th' n' lg st t').
  Proof.
    intros Hn HL HR. revert n' st t t' Hn. induction n as [|n IH]; intros n' st t t' Hn Ht; simpl; [by left|].
    destruct n' as [|n']; [lia|]. simpl. pose proof (HR t t' Ht) as Hr.
    destruct (th !! t) as [T|], (th' !! t') as [T'|]; try done; [|apply orel_panic].
    unfold same_root in Hr. destruct (t_root T) as [ps|], (t_root T') as [ps'|]; try done; [|apply orel_refl].
    eapply (orel_bind eq).
    - rewrite <- (do_params_shown F ord th' n' lg _ st t' ps'), <- Hr, (do_params_shown F ord th').
      apply (do_params_sim n n' ltac:(lia) lg R); [apply HL; lia| |done]. intros st0 t0 t0' H0. apply IH; [lia|done].
    - intros [st1 outs] ? <-. apply orel_refl.
  Qed.
End Sim.

(** ** Fuel *)
Lemma get_template_mono th k k' t name : (k <= k')%nat -> get_template k th t name <> NoFuel ->
  get_template k' th t name = get_template k th t name.
Proof.
  revert k' t. induction k as [|k IH]; intros k' t Hk; [done|]. destruct k' as [|k']; [lia|]. simpl.
  destruct (th !! t) as [T|]; [|done]. destruct (t_subs T ≫= _); [done|]. destruct (t_father T); [|done]. apply IH. lia.
Qed.
Lemma same_answer_eq r r' : same_answer eq r r' <-> r = r'.
Proof. destruct r, r'; split; try done; [by intros ->|by intros [= ->]]. Qed.
Lemma lookups_refl th k k' : (k <= k')%nat -> lookups th th eq k k'.
Proof.
  intros Hk t ? name <-.
  destruct (get_template k th t name) as [r| |] eqn:E; [|right; left|by left].
  - right. right. exists r, r. split; [done|]. split; [|by apply same_answer_eq].
    rewrite (get_template_mono th k k'); [done|done|by rewrite E].
  - split; [done|]. rewrite (get_template_mono th k k'); [done|done|by rewrite E].
Qed.
Lemma injector_mono F ord th n n' lg st t : (n <= n')%nat -> injector F ord th n lg st t <> NoFuel ->
  injector F ord th n' lg st t = injector F ord th n lg st t.
Proof.
  intros Hn Hf. assert (H : orel eq (injector F ord th n lg st t) (injector F ord th n' lg st t)).
  { apply (injector_sim F ord th th eq); [done|intros; by apply lookups_refl| |done].
    intros t0 ? <-. destruct (th !! t0) as [T|]; [|done]. unfold same_root. by destruct (t_root T). }
  destruct H as [H|[[-> ->]|(x & y & -> & -> & ->)]]; done.
Qed.

(** ** Comments *)
Lemma get_template_erase th k t name : get_template k (without_comments <$> th) t name = get_template k th t name.
Proof.
  revert t. induction k as [|k IH]; intros t; [done|]. simpl. rewrite lookup_fmap.
  destruct (th !! t) as [T|]; [|done]. simpl. destruct (t_subs T ≫= _); [done|]. destruct (t_father T); [apply IH|done].
Qed.
Lemma filter_shown ps : List.filter (fun p => negb (p_type p =? 1)) ps = List.filter shown ps.
Proof.
  apply List.filter_ext. intros p. unfold shown, MComment. case_bool_decide as H; destruct (Z.eqb_spec (p_type p) 1); done.
Qed.
Lemma filter_twice ps : List.filter shown (List.filter shown ps) = List.filter shown ps.
Proof. induction ps as [|p ps IH]; [done|]. simpl. destruct (shown p) eqn:E; simpl; [rewrite E; by rewrite IH|done]. Qed.
Lemma erase_root T : same_root T (without_comments T).
Proof.
  unfold same_root, without_comments. simpl. destruct (t_root T) as [ps|]; [|done]. simpl. by rewrite filter_shown, filter_twice.
Qed.
Lemma injector_erase F ord th n lg st t : injector F ord (without_comments <$> th) n lg st t = injector F ord th n lg st t.
Proof.
  apply orel_eq.
  - apply (injector_sim F ord _ _ eq); [done| | |done].
    + intros k k' Hk t0 ? name <-. rewrite get_template_erase. by apply lookups_refl.
    + intros t0 ? <-. rewrite lookup_fmap. destruct (th !! t0) as [T|]; [|done]. simpl.
      pose proof (erase_root T) as H. unfold same_root in *. by destruct (t_root T), (t_root (without_comments T)).
  - apply (injector_sim F ord _ _ eq); [done| | |done].
    + intros k k' Hk t0 ? name <-. rewrite get_template_erase. by apply lookups_refl.
    + intros t0 ? <-. rewrite lookup_fmap. destruct (th !! t0) as [T|]; [|done]. simpl. apply erase_root.
Qed.
Lemma execute_erase F ord langs th n h t data :
  execute F ord langs (without_comments <$> th) n h t data = execute F ord langs th n h t data.
Proof.
  unfold execute. destruct data as [d|]; [|by rewrite injector_erase].
  destruct (dget n h d (B "#")) as [r| |]; try done. simpl. by rewrite injector_erase.
Qed.
Lemma balanced_comment la body lr d : balanced d (la ++ TComment body :: lr) <-> balanced d (la ++ lr).
Proof. revert d. induction la as [|tk la IH]; intros d; [done|]. destruct tk; simpl; try apply IH. destruct d; [done|apply IH]. Qed.

(** ** Plain text *)
Lemma plain_root s : no_mark s -> first_pass s = literal s.
Proof. intros H. apply plain_reads, first_pass_iff in H. rewrite H. by destruct s. Qed.
Lemma plain_compiles th s : no_mark s ->
  exists th' t T, new_template th s = (th', Some t) /\ th' !! t = Some T /\ t_root T = Some (literal s) /\ t_father T = None.
Proof.
  intros H. unfold new_template. simpl. set (t := fresh (dom th)). unfold compile. rewrite plain_root by done.
  destruct s as [|c s]; simpl; eexists _, _, _; (split; [reflexivity|]); rewrite lookup_alter, lookup_insert; simpl; done.
Qed.
Lemma plain_injects F ord th s n lg st t T : th !! t = Some T -> t_root T = Some (literal s) ->
  injector F ord th (S n) lg st t = Ok (st, s).
Proof.
  intros HT Hr. simpl. rewrite HT, Hr. destruct s as [|c s]; simpl; [done|]. by rewrite app_nil_r.
Qed.
Lemma plain_executes F ord langs th s : no_mark s -> exists th' t, new_template th s = (th', Some t) /\
  (forall h n, execute F ord langs th' (S n) h t None = Ok (h, s)) /\
  (forall h d, chain h d -> exists n0, forall n, (n0 <= n)%nat -> execute F ord langs th' n h t (Some d) = Ok (h, s)).
Proof.
  intros H. destruct (plain_compiles th s H) as (th' & t & T & Hnew & HT & Hr & _).
  exists th', t. split; [done|]. split.
  - intros h n. unfold execute. by rewrite (plain_injects F ord th' s n None (h, None) t T).
  - intros h d Hc. assert (Hg : exists n r, dget n h d (B "#") = Ok r).
    { induction Hc as [l m Hl|l d Hl Hc (n & r & IH)].
      - exists 1%nat. simpl. rewrite Hl. eexists. reflexivity.
      - exists (S n), r. cbn [dget]. by rewrite Hl. }
    destruct Hg as (n & r & Hg). exists (S n). intros n' Hn'. unfold execute.
    rewrite (dget_mono n n' h d (B "#") (Ok r)); [|lia|done|done]. cbn [obind].
    destruct n' as [|n']; [lia|]. by rewrite (plain_injects F ord th' s n' _ (h, Some [d]) t T).
Qed.

(** ** Loading *)
Lemma compile_balanced th t T data toks : th !! t = Some T -> reads data toks -> (compile th t data).2 = true <-> balanced 0 toks.
Proof.
  intros HT Hr. pose proof (compile_spec th t T data toks HT Hr) as H. destruct (compile th t data) as [th' ok]. simpl.
  destruct H as [_ H]. destruct ok; [tauto|]. split; [done|]. tauto.
Qed.
Lemma new_template_unfold th data : new_template th data =
  let t := fresh (dom th) in let '(th2, ok) := compile (<[t := empty_tmpl]> th) t data in (th2, if ok then Some t else None).
Proof. done. Qed.
Lemma new_template_balanced th data toks : reads data toks -> (exists t, (new_template th data).2 = Some t) <-> balanced 0 toks.
Proof.
  intros Hr. rewrite new_template_unfold. cbn zeta. set (t := fresh (dom th)).
  pose proof (compile_balanced (<[t := empty_tmpl]> th) t empty_tmpl data toks (lookup_insert _ _ _) Hr) as H.
  destruct (compile _ t data) as [th2 ok]. simpl in *. destruct ok; split; intros H'.
  - by apply H.
  - by exists t.
  - by destruct H'.
  - apply H in H'. done.
Qed.
Lemma load_boxes th t T data toks : th !! t = Some T -> reads data toks -> balanced 0 toks ->
  exists th' is T', compile th t data = (th', true) /\ layout is toks /\ loaded th' (subs_of T) t is /\
    NoDup (flat_map box_locs is) /\ (forall x, x ∈ flat_map box_locs is -> x ∉ dom th) /\
    th' !! t = Some T' /\ t_name T' = t_name T /\ t_father T' = t_father T /\ (forall y, y ∈ dom th -> y <> t -> th' !! y = th !! y).
Proof.
  intros HT Hr Hb. pose proof (compile_spec th t T data toks HT Hr) as H. destruct (compile th t data) as [th' ok].
  destruct H as [Hfr H]. destruct ok; [|by destruct H]. destruct H as (_ & is & H1 & H2 & H3 & H4 & T' & H5 & H6 & H7).
  exists th', is, T'. repeat split; done.
Qed.
Lemma failed_load th t T data toks : th !! t = Some T -> reads data toks -> ~ balanced 0 toks ->
  exists th' m, compile th t data = (th', false) /\ th' !! t = Some (Tmpl (t_name T) (t_root T) m (t_father T)) /\
    (forall y, y ∈ dom th -> y <> t -> th' !! y = th !! y).
Proof.
  intros HT Hr Hb. pose proof (compile_spec th t T data toks HT Hr) as H. destruct (compile th t data) as [th' ok].
  destruct H as [Hfr H]. destruct ok; [by destruct H|]. destruct H as (_ & m & Hm). exists th', m. done.
Qed.
Lemma new_template_boxes th data toks : reads data toks -> balanced 0 toks ->
  exists th' t is T, new_template th data = (th', Some t) /\ layout is toks /\ loaded th' ∅ t is /\
    t ∉ dom th /\ t ∉ flat_map box_locs is /\ NoDup (flat_map box_locs is) /\ (forall x, x ∈ flat_map box_locs is -> x ∉ dom th) /\
    th' !! t = Some T /\ t_name T = [] /\ t_father T = None /\ (forall y, y ∈ dom th -> th' !! y = th !! y).
Proof.
  intros Hr Hb. rewrite new_template_unfold. cbn zeta. set (t := fresh (dom th)).
  assert (Ht : t ∉ dom th) by apply is_fresh.
  destruct (load_boxes (<[t := empty_tmpl]> th) t empty_tmpl data toks (lookup_insert _ _ _) Hr Hb)
    as (th' & is & T' & -> & H1 & H2 & H3 & H4 & H5 & H6 & H7 & H8).
  exists th', t, is, T'. split; [done|]. split; [done|]. split; [done|]. split; [done|]. split; [|split; [done|split; [|split; [done|split; [done|split; [done|]]]]]].
  - intros Hx. apply (H4 t Hx). rewrite dom_insert_L. set_solver.
  - intros x Hx Hd. apply (H4 x Hx). rewrite dom_insert_L. set_solver.
  - intros y Hy. assert (y <> t) by (intros ->; done). rewrite H8; [by rewrite lookup_insert_ne|rewrite dom_insert_L; set_solver|done].
Qed.
Lemma debris : exists data1 data2 th1 t th2, forall F ord langs h,
  new_template ∅ data1 = (th1, Some t) /\ compile th1 t data2 = (th2, false) /\
  execute F ord langs th1 5 h t None = Ok (h, B "old") /\ execute F ord langs th2 5 h t None = Ok (h, B "new").
Proof.
  exists (B "&&a&&[[a]]old[[]]"), (B "[[a]]new[[]][[]]"). eexists _, _, _. intros F ord langs h.
  split; [vm_compute; reflexivity|]. split; [vm_compute; reflexivity|]. split; vm_compute; reflexivity.
Qed.
