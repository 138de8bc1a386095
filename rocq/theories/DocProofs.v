(** * Sentences of the documentation of the metalanguage against the code (C93); v2/xcore.go:431-855. *)
From Verif Require Import GoBase GoStrings DatasetModel LangModel DatasetSpec DatasetProofs2 DatasetProofs3 TemplateModel TemplateSpec TemplateProofs5
  RenderSpec RenderProofs RenderProofs2 RenderProofs5 RenderProofs10.
Local Open Scope Z_scope.

Lemma list_as_dump F ord th lg h sc t h' out :
  renders_one F ord th lg h sc t (TDump (B "list")) h' out <-> renders_one F ord th lg h sc t (TDump (B "dump")) h' out.
Proof.
  split; intros H; inversion H; subst; try done; apply ro_dump; auto.
Qed.
Lemma dump_outermost F ord th lg h sc d t h' out :
  renders_one F ord th lg h (sc ++ [d]) t (TDump (B "list")) h' out <-> h' = h /\ dumps F ord h d out.
Proof.
  split.
  - intros H. inversion H; subst; [|done]. match goal with E : _ ++ [_] = _ ++ [_] |- _ => apply app_inj_tail in E as [_ ->] end. done.
  - intros [-> H]. apply ro_dump; auto.
Qed.
Lemma condition_level F ord th lg h sc t s d b x v q h' out : data_template s d b -> visible th t b (Some x) ->
  visible th t (dotted b (B "array")) q -> found h sc d (Some (VRef v)) -> dataset_at h v ->
  renders_one F ord th lg h sc t (TCond s) h' out <->
  renders F ord th lg h (v :: sc) (or_else q x) h' out /\ exists u, prints F ord h' (VRef v) u.
Proof.
  intros Hs Hx Hq Hf Hd. split.
  2:{ intros [H [u Hu]]. by eapply ro_cond_dataset. }
  intros H. inversion H; clear H; subst;
    repeat match goal with
    | A : data_template ?s _ _, C : data_template ?s _ _ |- _ => destruct (data_template_unique _ _ _ _ _ A C); clear A; subst
    | A : found ?h ?sc ?d _, C : found ?h ?sc ?d _ |- _ => pose proof (found_unique _ _ _ _ _ A C); clear A; subst
    | A : visible ?th ?t ?n _, C : visible ?th ?t ?n _ |- _ => pose proof (visible_unique _ _ _ _ _ A C); clear A; simplify_eq end.
  - split; [done|by eexists].
  - match goal with Hn : forall l, _ -> ~ dataset_at h l |- _ => by destruct (Hn v) end.
  - match goal with Hb : blank _ _ _ _ |- _ => inversion Hb as [| |? _ [m Hp]]; subst end. by destruct (object_text F ord _ _ _ _ Hp).
Qed.
Lemma condition_same_level F ord th lg h sc t s d b x v w q h' out : data_template s d b -> visible th t b (Some x) ->
  visible th t (dotted b w) q -> found h sc d (Some v) -> (forall l, v <> VRef l) -> v <> VNil -> prints F ord h v w -> w <> [] ->
  renders_one F ord th lg h sc t (TCond s) h' out <-> renders F ord th lg h sc (or_else q x) h' out.
Proof.
  intros Hs Hx Hq Hf Hd Hn [m Hp] Hw.
  assert (Huniq : forall h0 u, prints F ord h0 v u -> u = w).
  { intros h0 u [m' Hu]. assert (E : sprint F ord m' h0 v = sprint F ord m h v) by (destruct v; try done; by destruct (Hd l)). congruence. }
  split.
  2:{ intros H. assert (prints F ord h' v w). { exists m. rewrite <- Hp. destruct v; try done. by destruct (Hd l). }
      eapply (ro_cond_value F ord th lg h sc t s d b x v w q); try done; [by intros l ->; destruct (Hd l)|by exists m]. }
  intros H. inversion H; clear H; subst;
    repeat match goal with
    | A : data_template ?s _ _, C : data_template ?s _ _ |- _ => destruct (data_template_unique _ _ _ _ _ A C); clear A; subst
    | A : found ?h ?sc ?d _, C : found ?h ?sc ?d _ |- _ => pose proof (found_unique _ _ _ _ _ A C); clear A; simplify_eq
    | A : visible ?th ?t ?n _, C : visible ?th ?t ?n _ |- _ => pose proof (visible_unique _ _ _ _ _ A C); clear A; simplify_eq end.
  - match goal with H : forall l, VRef _ <> _ |- _ => by destruct (H v0) end.
  - match goal with A : prints _ _ h _ ?w0, C : visible th t (dotted _ ?w0) _ |- _ => apply Huniq in A; subst w0;
      by rewrite <- (visible_unique _ _ _ _ _ C Hq) end.
  - match goal with Hb : blank _ _ _ _ |- _ => inversion Hb as [| |? _ Hp']; subst end; [done|]. by apply Huniq in Hp'; subst.
Qed.
(** What &&:field:prefix&& tries. *)
Lemma selection F ord th lg h sc t s a field prefix v h' out : separated ":"%char s a [field; prefix] -> field_text F ord h sc field v ->
  renders_one F ord th lg h sc t (TRef s) h' out <-> exists r, choose th t [prefix ++ v; prefix] r /\ renders_opt F ord th lg h sc r h' out.
Proof.
  intros Hs Hf. split.
  2:{ intros (r & Hc & Hr). by eapply ro_ref_select. }
  assert (Hft : forall v', field_text F ord h sc field v' -> v' = v).
  { intros v' Hv. inversion Hf as [Hf1|Hf1|u ? Hf1 Hn Hp]; subst; inversion Hv as [Hf2|Hf2|u' ? Hf2 Hn' Hp']; subst;
      pose proof (found_unique _ _ _ _ _ Hf1 Hf2); simplify_eq; try done.
    destruct Hp as [m Hp], Hp' as [m' Hp'].
    apply (sprint_mono F ord m (m `max` m')) in Hp; [|lia|done]. apply (sprint_mono F ord m' (m `max` m')) in Hp'; [|lia|done]. congruence. }
  intros H. inversion H; clear H; subst;
    repeat match goal with
    | A : separated ?c ?s _ _, C : separated ?c ?s _ _ |- _ => apply separated_split in A; rewrite (proj1 (separated_split _ _ _ _) C) in A; simplify_eq
    | A : field_text _ _ h sc field _ |- _ => apply Hft in A; subst end.
  eauto.
Qed.

(** A collection of one dataset. *)
Definition nested : heap := list_to_map
  [(1%positive, ds [("c"%string, VRef 2); ("d"%string, VRef 3); ("n"%string, VStr (B "outer")); ("k"%string, VStr (B "maybe"))]);
   (2%positive, OColl [Some 3%positive; Some 4%positive]);
   (3%positive, ds [("n"%string, VStr (B "inner"))]); (4%positive, ds [])].
Definition only_list : heap := list_to_map
  [(1%positive, ds [("c"%string, VRef 2)]); (2%positive, OColl [Some 3%positive]); (3%positive, ds [("n"%string, VStr (B "secret"))])].
Definition text F langs (s : string) (h : heap) : outcome bytes := text_of (run F ord0 langs s h (Some 1%positive)).
Lemma list_shows_values F langs : text F langs "!!list!!" only_list = Ok (B "#xcore.XDataset{c:XDatasetCollection[0:xcore.XDataset{n:secret} ]}").
Proof. vm_compute. reflexivity. Qed.
Definition inside : heap := list_to_map
  [(1%positive, ds [("d"%string, VRef 2)]); (2%positive, ds [])].
Lemma dump_inside F langs : text F langs "&&x:d&&[[x]]!!dump!!,!!list!![[]]" inside =
  Ok (B "#xcore.XDataset{d:#xcore.XDataset{}},#xcore.XDataset{d:#xcore.XDataset{}}").
Proof. vm_compute. reflexivity. Qed.
Lemma condition_enters F langs : text F langs "{{n}},??d:x??,{{n}}[[x]]{{n}}[[]]" nested = Ok (B "outer,inner,outer").
Proof. vm_compute. reflexivity. Qed.
Lemma fallback_unused F langs : text F langs "<&&:k:sport.&&>[[sport.yes]]Y[[]][[sport.no]]N[[]][[sport]]unknown[[]]" nested = Ok (B "<>") /\
  text F langs "<&&:k:sport.&&>[[sport.yes]]Y[[]][[sport.]]unknown[[]]" nested = Ok (B "<unknown>").
Proof. split; vm_compute; reflexivity. Qed.
Lemma underscore_names_unused F langs : text F langs "@@c:loop@@[[loop_first|loop_last|loop_odd]]red[[]][[loop]]blue[[]]" nested = Ok (B "blueblue").
Proof. vm_compute. reflexivity. Qed.
Lemma even_is_odd F langs : text F langs "@@c:loop@@[[loop.even]]even{{.counter}}[[]][[loop]]odd{{.counter}}[[]]" nested = Ok (B "even1odd2").
Proof. vm_compute. reflexivity. Qed.
