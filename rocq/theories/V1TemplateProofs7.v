(** * Version 1: what the elements do without a value; witnesses. *)
From Verif Require Import GoBase GoStrings GoStringsProofs Regex DatasetModel LangModel DatasetSpec DatasetProofs DatasetProofs2 DatasetProofs3
  DatasetProofs5 TemplateModel TemplateSpec TemplateProofs2 TemplateProofs3 TemplateProofs4 TemplateProofs5 TemplateProofs6 RenderSpec
  RenderProofs RenderProofs2 RenderProofs3 RenderProofs4 RenderProofs5 RenderProofs6 RenderProofs7 RenderProofs10 PrintModel
  V1Template V1TemplateSpec V1TemplateProofs V1TemplateProofs2 V1TemplateProofs3 V1TemplateProofs4 V1TemplateProofs5 V1TemplateProofs6.
Local Open Scope Z_scope.

Lemma yields_unique o sc r1 r2 : yields o sc r1 -> yields o sc r2 -> r1 = r2.
Proof. destruct r1, r2; simpl; intros; repeat match goal with H : exists _, _ |- _ => destruct H as (? & ? & ?) end; subst; simplify_eq; congruence. Qed.
Lemma one1_unique F ord h th lg sc t k r1 r2 : one1 F ord h th lg sc t k r1 -> one1 F ord h th lg sc t k r2 -> r1 = r2.
Proof.
  intros H1 H2. destruct (renders1_complete F ord th h lg) as (_ & _ & _ & Hc & _). apply Hc in H1, H2.
  destruct (ev_and _ _ H1 H2) as [n H]. destruct (H n (le_n n)) as [Y1 Y2]. by eapply yields_unique.
Qed.
Lemma one1_iff F ord h th lg sc t k r0 : one1 F ord h th lg sc t k r0 -> forall r, one1 F ord h th lg sc t k r <-> r = r0.
Proof. intros H r. split; [intros H'; by eapply one1_unique|by intros ->]. Qed.
Section Values.
  Context (F : golib) (ord : heap -> gmap bytes value -> list (bytes * value)) (h : heap) (th : theap) (lg : option lang).
  Lemma loop1_other sc t s d b x v : data_template s d b -> has th t b (Some x) -> found1 h sc d (Some (Some v)) ->
    (forall c xs, v = VRef c -> ~ collection_at h c xs) -> forall r, one1 F ord h th lg (Some sc) t (TRange s) r <-> r = None.
  Proof. intros. apply one1_iff. by eapply o1_range_other. Qed.
  Lemma loop1_empty sc t s d b x c : data_template s d b -> has th t b (Some x) -> found1 h sc d (Some (Some (VRef c))) ->
    collection_at h c [] -> forall r, one1 F ord h th lg (Some sc) t (TRange s) r <-> r = Some [].
  Proof. intros. apply one1_iff. eapply o1_range; [done..|constructor]. Qed.
  Lemma condition1_blank sc t s d b x v : data_template s d b -> has th t b (Some x) -> found1 h sc d (Some v) -> no_text1 F ord h v ->
    forall r, one1 F ord h th lg (Some sc) t (TCond s) r <-> r = Some [].
  Proof.
    intros Hs Hx Hf Hn. apply one1_iff. destruct Hn as [| |y Hy|v Hv Hno Hp].
    - eapply o1_cond_missing; eauto.
    - eapply o1_cond_missing; eauto.
    - by eapply o1_cond_dataset.
    - by eapply o1_cond_empty.
  Qed.
  Lemma nil_element1 sc t s r : one1 F ord h th lg (Some (None :: sc)) t (TVar s) r <-> r = None.
  Proof. apply one1_iff. apply o1_var, t1_panic, f1_nil. Qed.
End Values.

(** ** Text that version 1 takes for an element *)
Lemma swallowed : exists s l1 l2, reads1 s l1 /\ reads s l2 /\ l2 = [TText s] /\ l1 <> l2.
Proof.
  exists (B "a && b && c"), [TText (B "a "); TRef (B " b "); TText (B " c")], [TText (B "a && b && c")].
  split; [|split; [|done]].
  - apply first_pass1_iff. vm_compute. reflexivity.
  - apply first_pass_iff. vm_compute. reflexivity.
Qed.

(** ** Runs *)
Definition page1 (s : string) : theap * loc := match new_template1 ∅ (B s) with (th, Some t) => (th, t) | (th, None) => (th, 1%positive) end.
Definition run1 F ord langs (s : string) (h : heap) (d : option loc) : outcome bytes := execute1 F ord langs (page1 s).1 h 30 (page1 s).2 d.
Lemma page1_built s : built1 (page1 s).1.
Proof. unfold page1. pose proof (k1_new ∅ (B s) k1_none) as H. destruct (new_template1 ∅ (B s)) as [th [t|]]; exact H. Qed.
Lemma logic_swallowed F ord langs h : run1 F ord langs "a && b && c" h None = Ok (B "a  c") /\
  text_of (run F ord langs "a && b && c" h None) = Ok (B "a && b && c").
Proof. split; vm_compute; reflexivity. Qed.
Lemma sibling_lost F ord langs h : run1 F ord langs "[[a]]A[[]][[b]]&&a&&[[]]&&b&&" h None = Ok (B "") /\
  text_of (run F ord langs "[[a]]A[[]][[b]]&&a&&[[]]&&b&&" h None) = Ok (B "A").
Proof. split; vm_compute; reflexivity. Qed.
(** 7: a collection with a nil element. *)
Definition shop1 : heap := <[7%positive := OColl [None]]> (<[1%positive := ds [("c"%string, VRef 2); ("d"%string, VRef 5); ("e"%string, VRef 6); ("n"%string, VStr (B "N"));
  ("void"%string, VStr []); ("z"%string, VRef 7)]]> shop).
Lemma no_value_differs F langs :
  map (fun s => (run1 F ord0 langs s shop1 (Some 1%positive), text_of (run F ord0 langs s shop1 (Some 1%positive))))
    ["@@n:x@@[[x]]one[[]]"; "@@e:x@@[[x]]one[[]]"; "@@zz:x@@[[x]]one[[]]"; "??d:x??[[x]]some[[]]"; "??void:x??[[x]]some[[]]"; "@@z:x@@[[x]]{{n}}[[]]"]%string
  = [(Panic, Ok (B "one")); (Ok [], Ok (B "one")); (Ok (B "one"), Ok (B "one")); (Ok [], Ok (B "some")); (Ok [], Ok (B "some")); (Panic, Panic)].
Proof. vm_compute. reflexivity. Qed.

(** ** String, GoString *)
Lemma string1_sorted T ps : t_root T = Some ps -> exists r, r ≡ₚ map (fun p => B "{" ++ itoa (p_type p) ++ B " " ++ p_data p ++ B "}") ps /\ StronglySorted bytes_le r /\
  tmpl_string1 T = Ok (B "xcore.XLanguage{" ++ join (B " ") r ++ B "}").
Proof. intros E. unfold tmpl_string1. rewrite E. eexists. split; [|split; [|reflexivity]]; by apply (proj1 (sort_strings_spec _ _) eq_refl). Qed.
Lemma string1_not_loaded : tmpl_string1 empty_tmpl = Panic /\ tmpl_string empty_tmpl = B "xcore.XTemplate{}".
Proof. split; vm_compute; reflexivity. Qed.

(** ** A check for [own_names] and [straight]: only the outermost template refers to boxes. *)
Definition own_check (th : theap) : bool :=
  forallb (fun '(t, T) => match t_root T with
                          | Some ps => forallb (fun p => bool_decide (p_type p <> MRange /\ p_type p <> MCondition)) ps &&
                                       (negb (existsb calls ps) || bool_decide (t_father T = None))
                          | None => true
                          end) (map_to_list th).
Lemma own_check_ok th : own_check th = true -> own_names th /\ straight th.
Proof.
  intros H. unfold own_check in H. rewrite forallb_forall in H.
  assert (Hall : forall t T l, th !! t = Some T -> t_root T = Some (map stored l) ->
    (forall k, k ∈ l -> p_type (stored k) <> MRange /\ p_type (stored k) <> MCondition) /\ (existsb calls (map stored l) = true -> t_father T = None)).
  { intros t T l HT Hr. specialize (H (t, T) ltac:(by apply elem_of_list_In, elem_of_map_to_list)). cbn beta iota in H. rewrite Hr in H.
    apply andb_prop in H as [H1 H2]. rewrite forallb_forall in H1. split.
    - intros k Hk. specialize (H1 (stored k) ltac:(by apply in_map, elem_of_list_In)). by apply bool_decide_eq_true in H1.
    - intros He. rewrite He in H2. by apply bool_decide_eq_true in H2. }
  split.
  - intros t T l k n r HT Hr Hk Hm Hv. destruct (Hall t T l HT Hr) as [_ Hf].
    assert (He : existsb calls (map stored l) = true).
    { apply existsb_exists. exists (stored k). split; [by apply in_map, elem_of_list_In|]. by destruct Hm. }
    specialize (Hf He). inversion Hv; congruence.
  - intros t T l s HT Hr. destruct (Hall t T l HT Hr) as [Hk _]. split; intros Hin; by destruct (Hk _ Hin).
Qed.
