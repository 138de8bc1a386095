(** * The same page in every language: proofs. *)
From Verif Require Import GoBase GoStrings GoStringsProofs Regex DatasetModel LangModel DatasetSpec DatasetProofs DatasetProofs2 DatasetProofs3
  DatasetProofs5 TemplateModel TemplateSpec TemplateProofs2 TemplateProofs3 TemplateProofs4 TemplateProofs5 TemplateProofs6
  RenderSpec RenderProofs RenderProofs2 RenderProofs3 RenderProofs5 HoleSpec TransSpec.
Local Open Scope Z_scope.

Lemma translation_app lg a b : translation lg (a ++ b) = translation lg a ++ translation lg b.
Proof. unfold translation. by rewrite map_app, concat_app. Qed.
Section Trans.
  Context (F : golib) (ord : heap -> gmap bytes value -> list (bytes * value)) (th : theap).
  Context (t0 : loc).
  Notation istate := (heap * option (list loc))%type.
  Notation good := (entries_from th t0).
  Lemma good_nil : good []. Proof. intros x H. by apply elem_of_nil in H. Qed.
  Lemma good_app a b : good a -> good b -> good (a ++ b).
  Proof. intros Ha Hb x [H|H]%elem_of_app; [by apply Ha|by apply Hb]. Qed.
  Lemma good_fixed s : good [Fixed s]. Proof. intros x H. by apply elem_of_list_singleton in H. Qed.
  (** A family of results, one per language, that is one page. *)
  Definition one_text {X} (f : option lang -> outcome (X * bytes)) : Prop :=
    (exists x page, good page /\ forall lg, f lg = Ok (x, translation lg page)) \/ (forall lg, f lg = Panic) \/ (forall lg, f lg = NoFuel).
  Definition one_page {X} (f : option lang -> outcome (X * list bytes)) : Prop :=
    (exists x page, good page /\ forall lg, exists outs, f lg = Ok (x, outs) /\ concat outs = translation lg page) \/ (forall lg, f lg = Panic) \/ (forall lg, f lg = NoFuel).
  Lemma op_ret {X} (x : X) : one_page (fun _ => Ok (x, [])).
  Proof. left. exists x, []. split; [apply good_nil|]. intros lg. by exists []. Qed.
  Lemma op_fixed {X} (x : X) s : one_page (fun _ => Ok (x, [s])).
  Proof. left. exists x, [Fixed s]. split; [apply good_fixed|]. intros lg. by exists [s]. Qed.
  Lemma op_panic {X} : one_page (fun _ => Panic : outcome (X * list bytes)).
  Proof. right; by left. Qed.
  Lemma op_nofuel {X} : one_page (fun _ => NoFuel : outcome (X * list bytes)).
  Proof. right; by right. Qed.
  Lemma op_const {Y X} (e : outcome Y) (K : option lang -> Y -> outcome (X * list bytes)) :
    (forall y, e = Ok y -> one_page (fun lg => K lg y)) -> one_page (fun lg => y <-! e; K lg y).
  Proof. intros H. destruct e as [y| |]; cbn [obind]; [by apply H|by right; left|by right; right]. Qed.
  (** After a text: what follows may put it in front. *)
  Lemma op_text {Z X} (f : option lang -> outcome (Z * bytes)) (K : option lang -> Z * bytes -> outcome (X * list bytes)) :
    one_text f -> (forall z page, good page -> one_page (fun lg => K lg (z, translation lg page))) -> one_page (fun lg => y <-! f lg; K lg y).
  Proof.
    intros [(z & page & Hg & H)|[H|H]] HK.
    - destruct (HK z page Hg) as [(x & p & Hp & H2)|[H2|H2]].
      + left. exists x, p. split; [done|]. intros lg. rewrite H. apply H2.
      + right; left. intros lg. rewrite H. apply H2.
      + right; right. intros lg. rewrite H. apply H2.
    - right; left. intros lg. by rewrite H.
    - right; right. intros lg. by rewrite H.
  Qed.
  Lemma op_one {X} (x : X) page : good page -> one_page (fun lg => Ok (x, [translation lg page])).
  Proof. intros Hg. left. exists x, page. split; [done|]. intros lg. eexists. split; [done|]. cbn. by rewrite app_nil_r. Qed.
  Lemma op_front {X} (f : option lang -> outcome (X * list bytes)) page : good page -> one_page f ->
    one_page (fun lg => '(x, outs) <-! f lg; Ok (x, translation lg page :: outs)).
  Proof.
    intros Hg [(x & p & Hp & H)|[H|H]].
    - left. exists x, (page ++ p). split; [by apply good_app|]. intros lg. destruct (H lg) as (outs & -> & E). cbn [obind]. eexists. split; [done|]. cbn. by rewrite E, translation_app.
    - right; left. intros lg. by rewrite H.
    - right; right. intros lg. by rewrite H.
  Qed.
  Lemma op_app {Z X} (f : option lang -> outcome (Z * list bytes)) (g : option lang -> Z -> outcome (X * list bytes)) :
    one_page f -> (forall z, one_page (fun lg => g lg z)) -> one_page (fun lg => '(z, a) <-! f lg; '(x, b) <-! g lg z; Ok (x, a ++ b)).
  Proof.
    intros [(z & p & Hp & H)|[H|H]] Hg.
    - destruct (Hg z) as [(x & q & Hq & H2)|[H2|H2]].
      + left. exists x, (p ++ q). split; [by apply good_app|]. intros lg. destruct (H lg) as (outs & -> & E), (H2 lg) as (outs2 & E1 & E2). cbn [obind].
        rewrite E1. cbn [obind]. eexists. split; [done|]. by rewrite concat_app, E, E2, translation_app.
      + right; left. intros lg. destruct (H lg) as (outs & -> & E). cbn [obind]. by rewrite H2.
      + right; right. intros lg. destruct (H lg) as (outs & -> & E). cbn [obind]. by rewrite H2.
    - right; left. intros lg. by rewrite H.
    - right; right. intros lg. by rewrite H.
  Qed.
  Lemma op_ext {X} (f g : option lang -> outcome (X * list bytes)) : (forall lg, f lg = g lg) -> one_page g -> one_page f.
  Proof.
    intros He [(x & p & Hp & H)|[H|H]].
    - left. exists x, p. split; [done|]. intros lg. rewrite He. apply H.
    - right; left. intros lg. by rewrite He.
    - right; right. intros lg. by rewrite He.
  Qed.
  Lemma obind_assoc {A C D} (a : outcome A) (f : A -> outcome C) (g : C -> outcome D) : obind (obind a f) g = obind a (fun x => obind (f x) g).
  Proof. by destruct a. Qed.

  Lemma reach_get t n nm x : reaches th t0 t -> lookup_template th n t nm = Ok (Some x) -> reaches th t0 x.
  Proof. intros Hr Hl. eapply rtc_r; [exact Hr|]. exists nm. apply get_template_visible. by exists n. Qed.
  Lemma reach_try t n nms x : reaches th t0 t -> try_names th n t nms = Ok (Some x) -> reaches th t0 x.
  Proof.
    intros Hr. induction nms as [|nm nms IH]; cbn [try_names]; [done|]. intros H. apply obind_ok in H as (r & Hl & H).
    destruct r as [y|]; [|by apply IH]. injection H as ->. by eapply reach_get.
  Qed.
  Section Body.
    Context (n : nat) (inj : option lang -> istate -> loc -> outcome (istate * bytes)).
    Context (IH : forall st t, reaches th t0 t -> one_text (fun lg => inj lg st t)).
    Lemma op_run st t : reaches th t0 t -> one_page (fun lg => run_on (inj lg) st t).
    Proof. intros Hr. unfold run_on. refine (op_text _ (fun _ y => let '(z, out) := y in Ok (z, [out])) (IH st t Hr) _). intros z page Hg. by apply op_one. Qed.
    Lemma op_run_opt st q : (forall t, q = Some t -> reaches th t0 t) -> one_page (fun lg => run_opt (inj lg) st q).
    Proof. intros Hr. destruct q as [t|]; cbn [run_opt]; [by apply op_run, Hr|apply op_ret]. Qed.
    (** Inside a dataset pushed on the stack. *)
    Lemma op_inside st t : reaches th t0 t -> one_page (fun lg => '(st2, out) <-! inj lg st t; sc3 <-! spop st2.2; Ok ((st2.1, sc3), [out])).
    Proof.
      intros Hr. refine (op_text _ (fun _ y => let '(st2, out) := y in sc3 <-! spop st2.2; Ok ((st2.1, sc3), [out])) (IH st t Hr) _).
      intros z page Hg. apply (op_const _ (fun lg sc3 => Ok ((z.1, sc3), [translation lg page]))). intros sc3 _. by apply op_one.
    Qed.
    Lemma op_reference st t xid : reaches th t0 t -> one_page (fun lg => do_reference F ord th n (inj lg) st t xid).
    Proof.
      intros Hr. unfold do_reference.
      assert (One : forall x (two : bool) field, one_page (fun lg => r <-! lookup_template th n t x;
        match r with None => Ok (st, []) | Some subt => if two then
            v <-! non_nil st.2 (fun xs => stack_data n st.1 xs field);
            match v ≫= as_dataset st.1 with
            | Some d => sc1 <-! spush st.2 d; '(st2, out) <-! inj lg (st.1, sc1) subt; sc3 <-! spop st2.2; Ok ((st2.1, sc3), [out])
            | None => run_on (inj lg) st subt end
          else run_on (inj lg) st subt end)).
      { intros x two field. apply op_const. intros [subt|] Hl; [|apply op_ret]. apply reach_get in Hl; [|done].
        destruct two; [|by apply op_run]. apply op_const. intros v _. destruct (v ≫= as_dataset st.1) as [d|]; [|by apply op_run].
        apply op_const. intros sc1 _. by apply op_inside. }
      destruct xid as [|x [|y [|z [|w l]]]].
      - exact (One [] false []).
      - exact (One x false []).
      - exact (One x true y).
      - apply op_const. intros v _. apply op_const. intros r Hq. apply op_run_opt. intros s ->. by eapply reach_try.
      - exact (One x false []).
    Qed.
    Lemma op_loop k : forall i st t b x cl, reaches th t0 t -> reaches th t0 x -> one_page (fun lg => do_loop th n (inj lg) k i st t b x cl).
    Proof.
      induction k as [|k IHk]; intros i st t b x cl Hr Hx; cbn [do_loop]; [apply op_nofuel|].
      apply op_const. intros c _. case_bool_decide; [|apply op_ret]. apply op_const. intros r Hq. apply op_const. intros e _.
      destruct e as [[d|]|]; try apply op_panic. apply op_const. intros h1 _. apply op_const. intros sc1 _.
      refine (op_text _ (fun lg y => let '(st2, out) := y in sc3 <-! spop st2.2; '(st4, outs) <-! do_loop th n (inj lg) k (i + 1) (st2.1, sc3) t b x cl; Ok (st4, out :: outs)) (IH _ _ _) _).
      { destruct r; [exact (reach_try _ _ _ _ Hr Hq)|done]. }
      intros z page Hg. apply (op_const _ (fun lg sc3 => '(st4, outs) <-! do_loop th n (inj lg) k (i + 1) (z.1, sc3) t b x cl; Ok (st4, translation lg page :: outs))). intros sc3 _. apply op_front; [done|]. by apply IHk.
    Qed.
    Lemma op_range st t s : reaches th t0 t -> one_page (fun lg => do_range th n (inj lg) st t s).
    Proof.
      intros Hr. unfold do_range. destruct (two_ids s) as [d b]. apply op_const. intros r Hl. destruct r as [x|]; [|apply op_ret]. apply reach_get in Hl; [|done].
      destruct st.2 as [xs|]; [|apply op_ret].
      assert (None_ : one_page (fun lg => tmp <-! try_names th n t [dot b (B "none")]; run_on (inj lg) st (match tmp with Some x => x | None => x end))).
      { apply op_const. intros tmp Ht. apply op_run. destruct tmp; [exact (reach_try _ _ _ _ Hr Ht)|done]. }
      apply op_const. intros cl _. apply op_const. intros c _. destruct cl as [l|]; [|done]. case_bool_decide; [by apply op_loop|done].
    Qed.
    Lemma op_condition st t s : reaches th t0 t -> one_page (fun lg => do_condition F ord th n (inj lg) st t s).
    Proof.
      intros Hr. unfold do_condition. destruct (two_ids s) as [d b]. apply op_const. intros subt Hl. apply op_const. intros v _.
      assert (Hs : forall x, subt = Some x -> reaches th t0 x) by (intros x ->; by eapply reach_get).
      (* what follows the first part *)
      pose (T := fun (lg : option lang) (st1 : istate) (outs : list bytes) (subt1 : option loc) =>
        empty <-! (if is_nil v then Ok true else s <-! sprint F ord n st1.1 v; Ok (match s with [] => true | _ => false end));
        if (empty : bool) then
          tmp <-! lookup_template th n t (dot b (B "none"));
          '(st2, outs2) <-! run_opt (inj lg) st1 (match tmp with Some x => Some x | None => subt1 end);
          Ok (st2, outs ++ outs2)
        else Ok (st1, outs)).
      assert (T0 : forall st1 subt1, (forall x, subt1 = Some x -> reaches th t0 x) -> one_page (fun lg => T lg st1 [] subt1)).
      { intros st1 subt1 H1. unfold T. apply op_const. intros e _. destruct e; [|apply op_ret]. apply op_const. intros tmp Ht.
        refine (op_app (fun _ => Ok (st1, [])) (fun lg st1 => run_opt (inj lg) st1 (match tmp with Some x => Some x | None => subt1 end)) (op_ret st1) _).
        intros z. apply op_run_opt. intros x Hx. destruct tmp as [y|]; [|by apply H1]. injection Hx as ->. exact (reach_get _ _ _ _ Hr Ht). }
      assert (T1 : forall st1 x page, reaches th t0 x -> good page -> one_page (fun lg => T lg st1 [translation lg page] (Some x))).
      { intros st1 x page Hx Hg. unfold T. apply op_const. intros e _. destruct e; [|by apply op_one]. apply op_const. intros tmp Ht.
        refine (op_app (fun lg => Ok (st1, [translation lg page])) (fun lg st1 => run_opt (inj lg) st1 (match tmp with Some x => Some x | None => Some x end)) (op_one st1 page Hg) _).
        intros z. apply op_run_opt. intros y Hy. destruct tmp as [w|]; injection Hy as ->; [exact (reach_get _ _ _ _ Hr Ht)|done]. }
      destruct subt as [x|]; [|by apply (T0 st None)]. specialize (Hs x eq_refl).
      destruct (is_nil v) eqn:En; [apply (T0 st (Some x)); by intros ? [= ->]|].
      destruct (as_dataset st.1 v) as [dd|].
      - eapply op_ext.
        { intros lg. rewrite obind_assoc. reflexivity. }
        apply op_const. intros sc1 _. eapply op_ext.
        { intros lg. rewrite obind_assoc. reflexivity. }
        apply op_const. intros tmp Ht. assert (Hy : reaches th t0 (match tmp with Some y => y | None => x end)) by (destruct tmp; [exact (reach_get _ _ _ _ Hr Ht)|done]).
        eapply op_ext.
        { intros lg. cbv zeta. rewrite obind_assoc. reflexivity. }
        refine (op_text _ (fun lg y => p <-! (let '(st2, out) := y in sc3 <-! spop st2.2; Ok (st2.1, sc3, [out], Some (match tmp with Some y => y | None => x end)));
          let '(st1, outs, subt1) := p in T lg st1 outs subt1) (IH _ _ Hy) _).
        intros z page Hg. cbv beta iota. eapply op_ext.
        { intros lg. rewrite obind_assoc. reflexivity. }
        apply op_const. intros sc3 _. cbn [obind]. exact (T1 (z.1, sc3) _ page Hy Hg).
      - eapply op_ext.
        { intros lg. rewrite obind_assoc. reflexivity. }
        apply op_const. intros w _. destruct w as [|c w]; [apply (T0 st (Some x)); by intros ? [= ->]|]. eapply op_ext.
        { intros lg. rewrite obind_assoc. reflexivity. }
        apply op_const. intros tmp Ht. assert (Hy : reaches th t0 (match tmp with Some y => y | None => x end)) by (destruct tmp; [exact (reach_get _ _ _ _ Hr Ht)|done]).
        eapply op_ext.
        { intros lg. cbv zeta. rewrite obind_assoc. reflexivity. }
        refine (op_text _ (fun lg y => p <-! (let '(st2, out) := y in Ok (st2, [out], Some (match tmp with Some y => y | None => x end)));
          let '(st1, outs, subt1) := p in T lg st1 outs subt1) (IH _ _ Hy) _).
        intros z page Hg. cbn [obind]. exact (T1 z _ page Hy Hg).
    Qed.
    Lemma op_param st t T ps p : reaches th t0 t -> th !! t = Some T -> t_root T = Some ps -> p ∈ ps -> one_page (fun lg => do_param F ord th n lg (inj lg) st t p).
    Proof.
      intros Hr Ht Hps Hp. unfold do_param. cbv zeta.
      case_bool_decide as E0; [apply op_fixed|]. case_bool_decide as E1; [apply op_ret|]. case_bool_decide as E2.
      { left. exists st, [Entry (p_data p)]. split.
        - intros nm Hn. apply elem_of_list_singleton in Hn. injection Hn as ->. exists t, T, ps. split_and!; try done.
          destruct p as [ty da]. cbn in E2 |- *. subst ty. done.
        - intros lg. destruct lg as [g|]; eexists; (split; [done|]); cbn; by rewrite ?app_nil_r. }
      case_bool_decide; [by apply op_reference|]. case_bool_decide.
      { destruct st.2; [|apply op_ret]. apply op_const. intros ? _. apply op_fixed. }
      case_bool_decide; [by apply op_range|]. case_bool_decide; [by apply op_condition|]. case_bool_decide; [|apply op_fixed].
      destruct st.2 as [[|d l]|]; try apply op_ret. case_bool_decide; [|apply op_ret]. apply op_const. intros ? _. apply op_fixed.
    Qed.
    Lemma op_params t T ps ps' st : reaches th t0 t -> th !! t = Some T -> t_root T = Some ps -> (forall p, p ∈ ps' -> p ∈ ps) ->
      one_page (fun lg => do_params F ord th n lg (inj lg) st t ps').
    Proof.
      intros Hr Ht Hps. revert st. induction ps' as [|p ps' IHp]; intros st Hin; cbn [do_params]; [apply op_ret|].
      apply op_app; [eapply op_param; try done; apply Hin; by left|]. intros z. apply IHp. intros q Hq. apply Hin. by right.
    Qed.
  End Body.
  Lemma one_injector n : forall st t, reaches th t0 t -> one_text (fun lg => injector F ord th n lg st t).
  Proof.
    induction n as [|n IH]; intros st t Hr; cbn [injector]; [by right; right|]. destruct (th !! t) as [T|] eqn:Ht; [|by right; left].
    destruct (t_root T) as [ps|] eqn:Hps.
    - destruct (op_params n (injector F ord th n) IH t T ps ps st Hr Ht Hps ltac:(done)) as [(x & page & Hg & H)|[H|H]].
      + left. exists x, page. split; [done|]. intros lg. destruct (H lg) as (outs & -> & E). cbn [obind]. by rewrite E.
      + right; left. intros lg. by rewrite H.
      + right; right. intros lg. by rewrite H.
    - left. eexists _, [Fixed _]. split; [apply good_fixed|]. intros lg. unfold translation. cbn [map concat spoken]. by rewrite app_nil_r.
  Qed.
End Trans.

Lemma language_found langs h d n r : dget n h d (B "#") = Ok r -> language_of langs h d (match r with Some (VOther k) => langs k | _ => None end).
Proof.
  intros Hr. exists r. split; [apply answers_gets; by exists n|].
  assert (D : (exists k, r = Some (VOther k)) \/ forall k, r <> Some (VOther k)).
  { destruct r as [v|]; [|by right]. destruct v; try (by right). left. eauto. }
  destruct D as [[k ->]|D]; [left; eauto|]. right. split; [done|]. destruct r as [v|]; [|done]. destruct v; try done. exfalso; by eapply D.
Qed.
(** One page for all languages. *)
Lemma one_page_for_all F ord th n h t d : exists r : outcome (heap * list part),
  (forall h' page, r = Ok (h', page) -> entries_from th t page) /\
  forall langs lg, language_of langs h d lg -> execute F ord langs th n h t (Some d) = in_language lg r.
Proof.
  destruct (one_injector F ord th t n (h, Some [d]) t (rtc_refl _ _)) as [(st & page & Hg & H)|[H|H]];
    (destruct (dget n h d (B "#")) as [v| |] eqn:Hd;
     [|exists Panic; split; [done|]; intros langs lg _; unfold execute; by rewrite Hd|exists NoFuel; split; [done|]; intros langs lg _; unfold execute; by rewrite Hd]).
  - exists (Ok (st.1, page)). split; [by intros ?? [= _ <-]|]. intros langs lg Hl. rewrite (language_unique _ _ _ _ _ Hl (language_found langs _ _ _ _ Hd)).
    unfold execute. rewrite Hd. cbn [obind]. rewrite H. done.
  - exists Panic. split; [done|]. intros langs lg Hl. unfold execute. rewrite Hd. cbn [obind]. by rewrite H.
  - exists NoFuel. split; [done|]. intros langs lg Hl. unfold execute. rewrite Hd. cbn [obind]. by rewrite H.
Qed.
Lemma translation_agree th t lg lg' page : entries_from th t page -> (forall name, entry_of th t name -> spoken lg (Entry name) = spoken lg' (Entry name)) ->
  translation lg page = translation lg' page.
Proof.
  intros Hg Ha. unfold translation. f_equal. apply map_ext_in. intros p Hp. apply elem_of_list_In in Hp. destruct p as [s|name]; [done|]. by apply Ha, Hg.
Qed.
(** Only the entries named in the templates matter. *)
Lemma only_named F ord langs langs' th n h t d lg lg' : language_of langs h d lg -> language_of langs' h d lg' ->
  (forall name, entry_of th t name -> spoken lg (Entry name) = spoken lg' (Entry name)) ->
  execute F ord langs th n h t (Some d) = execute F ord langs' th n h t (Some d).
Proof.
  intros Hl Hl' Ha. destruct (one_page_for_all F ord th n h t d) as (r & Hg & H). rewrite (H _ _ Hl), (H _ _ Hl').
  destruct r as [[h' page]| |]; [|done|done]. cbn. do 2 f_equal. eapply translation_agree; [by eapply Hg|done].
Qed.
(** Ending, panic and the data left behind do not depend on the language. *)
Lemma same_end F ord langs langs' th n h t d h' out lg lg' : language_of langs h d lg -> language_of langs' h d lg' ->
  execute F ord langs th n h t (Some d) = Ok (h', out) -> exists out', execute F ord langs' th n h t (Some d) = Ok (h', out').
Proof.
  intros Hl Hl' E. destruct (one_page_for_all F ord th n h t d) as (r & Hg & H). rewrite (H _ _ Hl') . rewrite (H _ _ Hl) in E.
  destruct r as [[h1 page]| |]; [|done|done]. injection E as <- <-. by eexists.
Qed.
Lemma same_panic F ord langs langs' th n h t d lg lg' : language_of langs h d lg -> language_of langs' h d lg' ->
  execute F ord langs th n h t (Some d) = Panic <-> execute F ord langs' th n h t (Some d) = Panic.
Proof.
  intros Hl Hl'. destruct (one_page_for_all F ord th n h t d) as (r & Hg & H). rewrite (H _ _ Hl'), (H _ _ Hl).
  by destruct r as [[h1 page]| |].
Qed.
(** Setting an entry of the language changes only its places. *)
Lemma set_entry F ord langs th n h t d g name v : language_of langs h d (Some g) ->
  forall langs', language_of langs' h d (Some (lset g name v)) -> exists r : outcome (heap * list part),
    execute F ord langs th n h t (Some d) = in_language (Some g) r /\
    execute F ord langs' th n h t (Some d) = in_language None (match r with Ok (h', page) => Ok (h', map (fun p => match p with
      | Entry e => Fixed (if bool_decide (e = name) then v else spoken (Some g) (Entry e)) | Fixed s => Fixed s end) page) | Panic => Panic | NoFuel => NoFuel end).
Proof.
  intros Hl langs' Hl'. destruct (one_page_for_all F ord th n h t d) as (r & Hg & H). exists r. rewrite (H _ _ Hl), (H _ _ Hl'). split; [done|].
  destruct r as [[h1 page]| |]; [|done|done]. cbn. do 2 f_equal. unfold translation. f_equal. rewrite map_map. apply map_ext. intros [s|e]; [done|]. cbn.
  case_bool_decide as E; [subst e; by rewrite lookup_insert|]. by rewrite lookup_insert_ne by done.
Qed.
(** In every language the translation is what the elements of the templates mean. *)
Lemma page_means F ord langs th n h t d h' out lg : compiled th -> language_of langs h d lg -> execute F ord langs th n h t (Some d) = Ok (h', out) ->
  exists page, entries_from th t page /\ out = translation lg page /\
    forall langs' lg', language_of langs' h d lg' -> executes F ord langs' th h t d h' (translation lg' page).
Proof.
  intros Hc Hl E. destruct (one_page_for_all F ord th n h t d) as (r & Hg & H). rewrite (H _ _ Hl) in E. destruct r as [[h1 page]| |]; [|done|done].
  injection E as <- <-. exists page. split; [by eapply Hg|]. split; [done|]. intros langs' lg' Hl'. apply (execute_meaning _ _ _ _ _ _ _ _ _ Hc). exists n. by rewrite (H _ _ Hl').
Qed.
