(** * Executions without data. *)
From Verif Require Import GoBase GoStrings GoStringsProofs Regex DatasetModel LangModel DatasetSpec DatasetProofs DatasetProofs2 DatasetProofs3
  DatasetProofs5 TemplateModel TemplateSpec TemplateProofs2 TemplateProofs3 TemplateProofs4 TemplateProofs5 TemplateProofs6
  RenderSpec RenderProofs RenderProofs2 RenderProofs3 RenderProofs4.
Local Open Scope Z_scope.

Lemma obind_panic {A C} (a : outcome A) (f : A -> outcome C) : obind a f = Panic -> a = Panic \/ exists x, a = Ok x /\ f x = Panic.
Proof. destruct a as [x| |]; simpl; [|by left|done]. right. by exists x. Qed.
Lemma closed_visible th t n x : closed th -> visible th t n (Some x) -> is_Some (th !! x).
Proof. intros [H1 H2] Hv. remember (Some x) as r eqn:E. induction Hv; simplify_eq; [by eapply H1|by apply IHHv]. Qed.
Lemma closed_lookup th k t n : closed th -> is_Some (th !! t) -> get_template k th t n <> Panic.
Proof.
  intros [H1 H2]. revert t. induction k as [|k IH]; intros t [T HT]; simpl; [done|]. rewrite HT.
  destruct (t_subs T ≫= _); [done|]. destruct (t_father T) as [f|] eqn:Ef; [|done]. apply IH. by eapply H2.
Qed.

Section Nil.
  Context (F : golib) (ord : heap -> gmap bytes value -> list (bytes * value)) (th : theap) (h : heap).
  Context (Hclosed : closed th).
  Notation run n := (injector F ord th n None).
  (** The result of an element and of the model. *)
  Definition agrees (a : outcome (heap * option (list loc) * list bytes)) (R : option bytes -> Prop) : Prop :=
    (forall st outs, a = Ok (st, outs) -> st = (h, None) /\ R (Some (concat outs))) /\ (a = Panic -> R None).
  Section Body.
    Context (n : nat) (inj : heap * option (list loc) -> loc -> outcome (heap * option (list loc) * bytes)).
    Context (Hinj : forall t st out, inj (h, None) t = Ok (st, out) -> st = (h, None) /\ nil_renders th t (Some out)).
    Context (Hpan : forall t, is_Some (th !! t) -> inj (h, None) t = Panic -> nil_renders th t None).
    Lemma nil_run_on t : is_Some (th !! t) -> agrees (run_on inj (h, None) t) (nil_renders th t).
    Proof.
      intros Ht. unfold run_on. split.
      - intros st outs H. apply obind_ok in H as ([st1 o] & H & [= <- <-]). apply Hinj in H as [-> H]. simpl. by rewrite app_nil_r.
      - intros H. apply obind_panic in H as [H|([st1 o] & _ & H)]; [|done]. by apply Hpan.
    Qed.
    Lemma agrees_imp a (R R' : option bytes -> Prop) : (forall r, R r -> R' r) -> agrees a R -> agrees a R'.
    Proof. intros HR [H1 H2]. split; [|by intros; apply HR, H2]. intros st outs E. destruct (H1 st outs E). split; [done|by apply HR]. Qed.
    Lemma agrees_lookup t name (f : option loc -> outcome _) (R : option bytes -> Prop) : is_Some (th !! t) ->
      (forall r, visible th t name r -> agrees (f r) R) -> agrees (r <-! lookup_template th n t name; f r) R.
    Proof.
      intros Ht Hf. destruct (lookup_template th n t name) as [r| |] eqn:E.
      - apply Hf. apply get_template_visible. by exists n.
      - by destruct (closed_lookup th n t name Hclosed Ht).
      - done.
    Qed.
    Lemma nil_reference t s : is_Some (th !! t) -> agrees (do_reference F ord th n inj (h, None) t (split_on ":"%char s)) (nil_one th t (TRef s)).
    Proof.
      intros Ht. destruct (split_on ":"%char s) as [|a ws] eqn:E; [by apply split_on_nonempty in E|]. apply separated_split in E.
      assert (Hgen : length ws <> 1%nat -> length ws <> 2%nat ->
        agrees (r <-! lookup_template th n t a; match r with None => Ok ((h, None), []) | Some subt => run_on inj (h, None) subt end) (nil_one th t (TRef s))).
      { intros L1 L2. apply agrees_lookup; [done|]. intros [x|] Hv.
        - eapply agrees_imp; [|apply nil_run_on; by eapply closed_visible]. intros r Hr. by eapply no_ref.
        - split; [|done]. intros st outs [= <- <-]. split; [done|]. by eapply no_ref_unknown. }
      destruct ws as [|f [|p [|e ws]]]; [by apply Hgen| | |by apply Hgen].
      - cbn [do_reference]. apply agrees_lookup; [done|]. intros [x|] Hv; split; try done.
        + intros _. by eapply no_ref_narrow.
        + intros st outs [= <- <-]. split; [done|]. by eapply no_ref_unknown.
      - cbn [do_reference]. split; [done|]. intros _. by eapply no_ref_select.
    Qed.
    Lemma nil_condition t s : is_Some (th !! t) -> agrees (do_condition F ord th n inj (h, None) t s) (nil_one th t (TCond s)).
    Proof.
      intros Ht. unfold do_condition. destruct (two_ids s) as [d b] eqn:E. apply two_ids_spec in E.
      apply agrees_lookup; [done|]. intros p Hp. cbn [snd fst obind is_nil].
      assert (Hl : agrees (tmp <-! lookup_template th n t (dot b (B "none"));
        '(st2, outs2) <-! run_opt inj (h, None) (match tmp with Some x => Some x | None => p end); Ok (st2, [] ++ outs2)) (nil_one th t (TCond s))).
      { apply agrees_lookup; [done|]. intros q Hq.
        destruct (match q with Some y => Some y | None => p end) as [x|] eqn:Ex.
        - assert (Hx : is_Some (th !! x)) by (destruct q; simplify_eq; by eapply closed_visible).
          cbn [run_opt]. destruct (nil_run_on x Hx) as [A1 A2].
          destruct (run_on inj (h, None) x) as [[st o]| |] eqn:Er; cbn [obind]; split; try done.
          + intros st' o' [= <- <-]. destruct (A1 _ _ eq_refl) as [-> Hr]. split; [done|]. by eapply no_cond.
          + intros _. eapply no_cond; [done..|]. by apply A2.
        - cbn [run_opt obind]. split; [|done]. intros st o [= <- <-]. split; [done|].
          destruct q; [done|]. subst p. by eapply no_cond_unknown. }
      destruct p; cbn [obind]; exact Hl.
    Qed.
    Lemma nil_param t k : is_Some (th !! t) -> k <> TClose -> (forall nm, k <> TOpen nm) ->
      agrees (do_param F ord th n None inj (h, None) t (stored k)) (nil_one th t k).
    Proof.
      intros Ht Hc Ho. destruct k as [s|s|s|s|s|s|s|s|s|]; try done.
      - split; [|done]. intros st o [= <- <-]. split; [done|]. simpl. rewrite app_nil_r. constructor.
      - split; [|done]. intros st o [= <- <-]. split; [done|]. constructor.
      - split; [|done]. intros st o [= <- <-]. split; [done|]. constructor.
      - change (agrees (do_reference F ord th n inj (h, None) t (split_on ":"%char s)) (nil_one th t (TRef s))). by apply nil_reference.
      - change (agrees (do_range th n inj (h, None) t s) (nil_one th t (TRange s))). unfold do_range. destruct (two_ids s) as [d b] eqn:E.
        apply two_ids_spec in E. apply agrees_lookup; [done|]. intros r Hr. destruct r; cbn; (split; [|done]); intros st o [= <- <-]; (split; [done|by eapply no_range]).
      - change (agrees (do_condition F ord th n inj (h, None) t s) (nil_one th t (TCond s))). by apply nil_condition.
      - split; [|done]. intros st o [= <- <-]. split; [done|]. constructor.
      - split; [|done]. intros st o [= <- <-]. split; [done|]. constructor.
      - by destruct (Ho s).
    Qed.
    Lemma nil_params t l : is_Some (th !! t) -> Forall (fun k => k <> TClose /\ forall nm, k <> TOpen nm) l ->
      agrees (do_params F ord th n None inj (h, None) t (map stored l)) (nil_all th t l).
    Proof.
      intros Ht Hl. induction Hl as [|k l [Hc Ho] Hl IH].
      - split; [|done]. intros st o [= <- <-]. split; [done|constructor].
      - cbn [map do_params]. destruct (nil_param t k Ht Hc Ho) as [A1 A2].
        destruct (do_param F ord th n None inj (h, None) t (stored k)) as [[st1 a]| |]; cbn [obind].
        + destruct (A1 _ _ eq_refl) as [-> Ha]. destruct IH as [B1 B2].
          destruct (do_params F ord th n None inj (h, None) t (map stored l)) as [[st2 b]| |]; cbn [obind].
          * split; [|done]. intros st o [= <- <-]. destruct (B1 _ _ eq_refl) as [-> Hb]. split; [done|]. rewrite concat_app. by constructor.
          * split; [done|]. intros _. eapply na_later; [done|]. by apply B2.
          * done.
        + split; [done|]. intros _. apply na_panic. by apply A2.
        + done.
    Qed.
  End Body.
  Lemma nil_injector n : compiled th ->
    (forall t st out, run n (h, None) t = Ok (st, out) -> st = (h, None) /\ nil_renders th t (Some out)) /\
    (forall t, is_Some (th !! t) -> run n (h, None) t = Panic -> nil_renders th t None).
  Proof.
    intros Hcomp. induction n as [|n [IH1 IH2]]; [done|].
    assert (Hp : forall t T l, th !! t = Some T -> Forall (fun k => k <> TClose /\ forall nm, k <> TOpen nm) l ->
      agrees (do_params F ord th n None (run n) (h, None) t (map stored l)) (nil_all th t l)).
    { intros t T l HT Hl. apply nil_params; [done|done|by exists T|done]. }
    split; cbn [injector].
    - intros t st out H. destruct (th !! t) as [T|] eqn:HT; [|done]. destruct (t_root T) as [ps|] eqn:Hr.
      + destruct (Hcomp t T ps HT Hr) as (l & -> & Hl). apply obind_ok in H as ([st1 outs] & H & [= <- <-]).
        destruct (proj1 (Hp t T l HT Hl) _ _ H) as [-> Ha]. split; [done|]. by eapply nr_root.
      + injection H as <- <-. split; [done|]. by eapply nr_not_compiled.
    - intros t [T HT] H. rewrite HT in H. destruct (t_root T) as [ps|] eqn:Hr; [|done].
      destruct (Hcomp t T ps HT Hr) as (l & -> & Hl). apply obind_panic in H as [H|([st1 outs] & _ & H)]; [|done].
      eapply nr_root; [done|done|]. by apply (Hp t T l HT Hl).
  Qed.
End Nil.
Section NilComplete.
  Context (F : golib) (ord : heap -> gmap bytes value -> list (bytes * value)) (th : theap) (h : heap).
  Notation run n := (injector F ord th n None).
  Notation nilst := (h, None : option (list loc)).
  Definition gives {A} (a : outcome (heap * option (list loc) * A)) (f : A -> bytes) (r : option bytes) : Prop :=
    match r with Some o => exists x, a = Ok (nilst, x) /\ f x = o | None => a = Panic end.
  Lemma gives_run_on n t r : gives (run n nilst t) id r -> gives (run_on (run n) nilst t) (@concat ascii) r.
  Proof.
    unfold run_on. destruct r as [o|]; cbn [gives].
    - intros (x & E & <-). exists [x]. rewrite E. split; [done|]. simpl. by rewrite app_nil_r.
    - intros E. by rewrite E.
  Qed.
  Lemma nil_complete :
    (forall t r, nil_renders th t r -> ev (fun n => gives (run n nilst t) id r)) /\
    (forall t l r, nil_all th t l r -> ev (fun n => gives (do_params F ord th n None (run n) nilst t (map stored l)) (@concat ascii) r)) /\
    (forall t k r, nil_one th t k r -> ev (fun n => gives (do_param F ord th n None (run n) nilst t (stored k)) (@concat ascii) r)).
  Proof.
    apply nil_mutind.
    - intros t T l r HT Hr _ [n0 IH]. exists (S n0). intros n Hn. destruct n as [|n]; [lia|]. cbn [injector]. rewrite HT, Hr.
      specialize (IH n ltac:(lia)). destruct r as [o|]; cbn [gives] in *.
      + destruct IH as (x & E & <-). exists (concat x). rewrite E. done.
      + by rewrite IH.
    - intros t T HT Hr. exists 1%nat. intros n Hn. destruct n as [|n]; [lia|]. cbn [injector gives]. rewrite HT, Hr. eauto.
    - intros t. apply ev_all. intros n. by exists [].
    - intros t k l a b _ H1 _ H2. pose proof (ev_and _ _ H1 H2) as H. revert H. apply ev_imp. intros n [(x & E1 & <-) (y & E2 & <-)].
      exists (x ++ y). cbn [map do_params]. rewrite E1. cbn [obind]. rewrite E2. split; [done|apply concat_app].
    - intros t k l _. apply ev_imp. intros n E. cbn [gives map do_params] in *. by rewrite E.
    - intros t k l a _ H1 _ H2. pose proof (ev_and _ _ H1 H2) as H. revert H. apply ev_imp. intros n [(x & E1 & _) E2].
      cbn [gives map do_params] in *. rewrite E1. cbn [obind]. by rewrite E2.
    - intros t s. apply ev_all. intros n. exists [s]. split; [done|]. simpl. by rewrite app_nil_r.
    - intros t s. apply ev_all. intros n. by exists [].
    - intros t s. apply ev_all. intros n. by exists [].
    - intros t s. apply ev_all. intros n. by exists [].
    - intros t s. apply ev_all. intros n. by exists [].
    - intros t s d b r Hs Hv. apply visible_ev in Hv. revert Hv. apply ev_imp. intros n H. exists []. split; [|done].
      change (do_range th n (run n) nilst t s = Ok (nilst, [])). unfold do_range. rewrite (proj2 (two_ids_spec s d b) Hs), H. by destruct r.
    - intros t s a ws x r Hs L1 L2 Hv _ IH. apply visible_ev in Hv. pose proof (ev_and _ _ Hv IH) as H. revert H. apply ev_imp. intros n [E G].
      apply separated_split in Hs. apply gives_run_on in G.
      change (gives (do_reference F ord th n (run n) nilst t (split_on ":"%char s)) (@concat ascii) r). rewrite Hs.
      destruct ws as [|w1 [|w2 [|w3 ws]]]; try done; cbn [do_reference]; rewrite E; cbn [obind]; done.
    - intros t s a ws Hs L2 Hv. apply visible_ev in Hv. revert Hv. apply ev_imp. intros n E. apply separated_split in Hs.
      change (gives (do_reference F ord th n (run n) nilst t (split_on ":"%char s)) (@concat ascii) (Some [])). rewrite Hs.
      destruct ws as [|w1 [|w2 [|w3 ws]]]; try done; cbn [do_reference]; rewrite E; cbn [obind]; by exists [].
    - intros t s a f x Hs Hv. apply visible_ev in Hv. revert Hv. apply ev_imp. intros n E. apply separated_split in Hs.
      change (gives (do_reference F ord th n (run n) nilst t (split_on ":"%char s)) (@concat ascii) None). rewrite Hs.
      cbn [do_reference]. rewrite E. done.
    - intros t s a f p Hs. apply ev_all. intros n. apply separated_split in Hs.
      change (gives (do_reference F ord th n (run n) nilst t (split_on ":"%char s)) (@concat ascii) None). by rewrite Hs.
    - intros t s d b p q x r Hs Hp Hq Ex _ IH. apply visible_ev in Hp, Hq.
      pose proof (ev_and _ _ Hp (ev_and _ _ Hq IH)) as H. revert H. apply ev_imp. intros n (E1 & E2 & G). apply gives_run_on in G.
      change (gives (do_condition F ord th n (run n) nilst t s) (@concat ascii) r).
      unfold do_condition. rewrite (proj2 (two_ids_spec s d b) Hs), E1. cbn [obind snd fst is_nil].
      change (dot b (B "none")) with (dotted b (B "none")).
      destruct p; cbn [obind]; rewrite E2; cbn [obind]; rewrite Ex; cbn [run_opt];
        (destruct r as [o|]; cbn [gives] in *; [destruct G as (y & -> & <-); exists y; done|by rewrite G]).
    - intros t s d b Hs Hp Hq. apply visible_ev in Hp, Hq. pose proof (ev_and _ _ Hp Hq) as H. revert H. apply ev_imp. intros n (E1 & E2).
      change (gives (do_condition F ord th n (run n) nilst t s) (@concat ascii) (Some [])).
      unfold do_condition. rewrite (proj2 (two_ids_spec s d b) Hs), E1. cbn [obind snd fst is_nil].
      change (dot b (B "none")) with (dotted b (B "none")). rewrite E2. cbn [obind run_opt gives]. by exists [].
  Qed.
End NilComplete.
Lemma execute_nil F ord langs th h t h' out : compiled th -> closed th ->
  (exists n, execute F ord langs th n h t None = Ok (h', out)) <-> h' = h /\ nil_renders th t (Some out).
Proof.
  intros Hc Hcl. split.
  - intros [n H]. unfold execute in H. apply obind_ok in H as ([st o] & H & [= <- <-]).
    apply (proj1 (nil_injector F ord th h Hcl n Hc)) in H as [-> H]. done.
  - intros [-> H]. apply (proj1 (nil_complete F ord th h)) in H as [n H]. exists n. destruct (H n (le_n n)) as (x & E & <-).
    unfold execute. by rewrite E.
Qed.
Lemma execute_nil_panics F ord langs th h t : compiled th -> closed th -> is_Some (th !! t) ->
  (exists n, execute F ord langs th n h t None = Panic) <-> nil_renders th t None.
Proof.
  intros Hc Hcl Ht. split.
  - intros [n H]. unfold execute in H. apply obind_panic in H as [H|([st o] & _ & H)]; [|done].
    by apply (proj2 (nil_injector F ord th h Hcl n Hc)).
  - intros H. apply (proj1 (nil_complete F ord th h)) in H as [n H]. exists n. specialize (H n (le_n n)). cbn [gives] in H.
    unfold execute. by rewrite H.
Qed.

(** ** Loading keeps the templates closed *)
Definition good (th : theap) (s : cstate) : Prop :=
  closed (s_heap s) /\ is_Some (s_heap s !! s_actual s) /\ Forall (fun x => is_Some (s_heap s !! x)) (s_uppers s) /\
  (forall x, is_Some (th !! x) -> is_Some (s_heap s !! x)).
Lemma is_Some_alter (th : theap) f t x : is_Some (th !! x) -> is_Some (alter f t th !! x).
Proof. intros [X HX]. destruct (decide (x = t)) as [->|]; [rewrite lookup_alter, HX; by eexists|rewrite lookup_alter_ne by done; by eexists]. Qed.
Lemma closed_alter th t f : closed th ->
  (forall T, th !! t = Some T -> (forall n x, subs_of (f T) !! n = Some x -> subs_of T !! n = Some x \/ is_Some (th !! x)) /\
     (forall x, t_father (f T) = Some x -> t_father T = Some x \/ is_Some (th !! x))) -> closed (alter f t th).
Proof.
  intros [H1 H2] Hf. split.
  - intros y Y n x. destruct (decide (y = t)) as [->|].
    + rewrite lookup_alter. destruct (th !! t) as [T|] eqn:E; [|done]. intros [= <-] Hx. apply is_Some_alter.
      destruct (proj1 (Hf T eq_refl) n x Hx); [by eapply H1|done].
    + rewrite lookup_alter_ne by done. intros HY Hx. apply is_Some_alter. by eapply H1.
  - intros y Y x. destruct (decide (y = t)) as [->|].
    + rewrite lookup_alter. destruct (th !! t) as [T|] eqn:E; [|done]. intros [= <-] Hx. apply is_Some_alter.
      destruct (proj2 (Hf T eq_refl) x Hx); [by eapply H2|done].
    + rewrite lookup_alter_ne by done. intros HY Hx. apply is_Some_alter. by eapply H2.
Qed.
Lemma closed_add th t name tm : closed th -> is_Some (th !! tm) -> closed (add_template th t name tm).
Proof.
  intros Hc Htm. unfold add_template. destruct (th !! t) as [T|] eqn:HT; [|done].
  apply closed_alter; [apply closed_alter; [done|]|].
  - intros X HX. split; [by left|]. cbn. intros x [= <-]. right. by exists T.
  - intros X HX. split; [|by left]. cbn. intros n x. destruct (decide (n = name)) as [->|].
    + rewrite lookup_insert. intros [= <-]. right. by apply is_Some_alter.
    + rewrite lookup_insert_ne by done. intros Hx. right. apply is_Some_alter. eapply (proj1 Hc t T n x HT). unfold subs_of. done.
Qed.
Lemma is_Some_add th t name tm x : is_Some (th !! x) -> is_Some (add_template th t name tm !! x).
Proof. intros Hx. unfold add_template. destruct (th !! t); [|done]. by apply is_Some_alter, is_Some_alter. Qed.
Lemma closed_register th t name tm : closed th -> is_Some (th !! tm) ->
  closed (register th t name tm) /\ forall x, is_Some (th !! x) -> is_Some (register th t name tm !! x).
Proof.
  intros Hc Htm. unfold register. case_bool_decide; [|split; [by apply closed_add|by intros; apply is_Some_add]].
  generalize (split_on "|"%char name). intros ws. revert th Hc Htm. induction ws as [|w ws IH]; intros th Hc Htm; [done|]. simpl.
  destruct w as [|c w]; [by apply IH|]. destruct (IH (add_template th t (c :: w) tm)) as [G1 G2].
  - by apply closed_add.
  - by apply is_Some_add.
  - split; [done|]. intros x Hx. by apply G2, is_Some_add.
Qed.
Lemma good_step th i s s' : second_step i s = Some s' -> good th s -> good th s'.
Proof.
  intros Hs (G1 & G2 & G3 & G4). unfold second_step in Hs. destruct (s_compiled s !! i) as [x|]; [|by injection Hs as <-].
  case_bool_decide.
  - unfold talloc in Hs. injection Hs as <-. set (a := fresh (dom (s_heap s))).
    assert (Ha : s_heap s !! a = None) by (apply not_elem_of_dom, is_fresh).
    assert (Hk : forall y, is_Some (s_heap s !! y) -> is_Some (<[a := Tmpl (p_data x) None None None]> (s_heap s) !! y)).
    { intros y Hy. rewrite lookup_insert_ne; [done|]. intros <-. rewrite Ha in Hy. by destruct Hy. }
    split; [|split; [|split]]; cbn [s_heap s_actual s_uppers].
    + split.
      * intros y Y n z. destruct (decide (y = a)) as [->|]; [rewrite lookup_insert; intros [= <-]; cbn; by rewrite lookup_empty|].
        rewrite lookup_insert_ne by done. intros HY Hz. apply Hk. by eapply (proj1 G1).
      * intros y Y z. destruct (decide (y = a)) as [->|]; [rewrite lookup_insert; by intros [= <-]|].
        rewrite lookup_insert_ne by done. intros HY Hz. apply Hk. by eapply (proj2 G1).
    + change (is_Some (<[a := Tmpl (p_data x) None None None]> (s_heap s) !! a)). rewrite lookup_insert. by eexists.
    + constructor; [by apply Hk|]. eapply Forall_impl; [exact G3|]. exact Hk.
    + intros y Hy. apply Hk. by apply G4.
  - case_bool_decide; [|by injection Hs as <-]. destruct (s_starts s) as [|sp starts]; [done|].
    destruct (s_uppers s) as [|up uppers]; [done|]. injection Hs as <-. cbn. apply Forall_cons in G3 as [G3 G3'].
    match goal with |- good _ (CState _ _ _ _ (register (alter ?f ?a ?hh) ?u ?nm ?tm)) =>
      assert (Hc : closed (alter f a hh)) by (apply closed_alter; [done|]; intros T _; split; by left);
      destruct (closed_register (alter f a hh) u nm tm Hc (is_Some_alter _ _ _ _ G2)) as [C1 C2] end.
    split; [done|]. cbn. split; [by apply C2, is_Some_alter|]. split.
    + eapply Forall_impl; [exact G3'|]. intros y Hy. by apply C2, is_Some_alter.
    + intros y Hy. by apply C2, is_Some_alter, G4.
Qed.
Lemma good_pass th k i s : good th s -> good th (second_pass k i s).1.
Proof.
  revert i s. induction k as [|k IH]; intros i s Hg; cbn [second_pass]; [done|].
  destruct (second_step i s) as [s'|] eqn:E; [|done]. apply IH. by eapply good_step.
Qed.
Lemma compile_closed th t data : closed th -> is_Some (th !! t) -> closed (compile th t data).1 /\ forall x, is_Some (th !! x) -> is_Some ((compile th t data).1 !! x).
Proof.
  intros Hc Ht. unfold compile. pose proof (good_pass th (length (first_pass data)) 0 (CState [] [] t (first_pass data) th)) as Hg.
  destruct (second_pass _ _ _) as [s ok]. destruct Hg as (G1 & _ & _ & G2); [split; [done|split; [done|split; [constructor|done]]]|]. cbn [fst] in *.
  destruct ok; [|done]. destruct (s_starts s); [|done]. cbn [fst]. split.
  - apply closed_alter; [done|]. intros T _. split; by left.
  - intros x Hx. by apply is_Some_alter, G2.
Qed.
Lemma new_template_closed th data : closed th -> closed (new_template th data).1 /\
  forall t, (new_template th data).2 = Some t -> is_Some ((new_template th data).1 !! t).
Proof.
  intros Hc. rewrite new_template_unfold. cbn zeta. set (t := fresh (dom th)).
  assert (Ha : th !! t = None) by (apply not_elem_of_dom, is_fresh).
  assert (Hc1 : closed (<[t := empty_tmpl]> th)).
  { assert (Hk : forall y, is_Some (th !! y) -> is_Some (<[t := empty_tmpl]> th !! y)).
    { intros y Hy. rewrite lookup_insert_ne; [done|]. intros <-. rewrite Ha in Hy. by destruct Hy. }
    split.
    - intros y Y n z. destruct (decide (y = t)) as [->|]; [rewrite lookup_insert; intros [= <-]; cbn; by rewrite lookup_empty|].
      rewrite lookup_insert_ne by done. intros HY Hz. apply Hk. by eapply (proj1 Hc).
    - intros y Y z. destruct (decide (y = t)) as [->|]; [rewrite lookup_insert; by intros [= <-]|].
      rewrite lookup_insert_ne by done. intros HY Hz. apply Hk. by eapply (proj2 Hc). }
  destruct (compile_closed (<[t := empty_tmpl]> th) t data Hc1) as [C1 C2]; [rewrite lookup_insert; by eexists|].
  destruct (compile _ t data) as [th2 ok]. cbn [fst] in *. destruct ok; cbn [fst snd]; split; try done.
  intros x [= <-]. apply C2. rewrite lookup_insert. by eexists.
Qed.
Lemma no_templates_closed : closed ∅.
Proof. split; intros t T; by rewrite lookup_empty. Qed.
