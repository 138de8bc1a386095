(** * Loading files. *)
From Verif Require Import GoBase GoStrings DatasetModel LangModel TemplateModel FileModel.
Local Open Scope Z_scope.

(** The whole file can be read. *)
Definition readable (O : os) (path data : bytes) : Prop :=
  can_open O path = true /\ content O path = Some data /\ can_close O path = true.
(** Something goes wrong with the file. *)
Definition unreadable (O : os) (path : bytes) : Prop :=
  can_open O path = false \/ content O path = None \/ can_close O path = false.

Lemma load_file_readable {A} O (load : A -> bytes -> A * bool) a path data : readable O path data ->
  load_file O load a path = Run (load a data).1 (load a data).2 0.
Proof. intros (H1 & H2 & H3). unfold load_file. rewrite H1, H2, H3. by destruct (load a data). Qed.
Lemma load_file_unreadable {A} O (load : A -> bytes -> A * bool) a path : unreadable O path ->
  r_ok (load_file O load a path) = false /\ r_state (load_file O load a path) = a.
Proof.
  unfold load_file. intros [H|[H|H]]; rewrite H; [done|by destruct (can_open O path)|].
  destruct (can_open O path); [|done]. by destruct (content O path).
Qed.
Lemma load_file_handles {A} O (load : A -> bytes -> A * bool) a path :
  (r_open (load_file O load a path) = 1 <-> can_open O path = true /\ content O path = None) /\
  (r_open (load_file O load a path) = 0 <-> ~ (can_open O path = true /\ content O path = None)).
Proof.
  unfold load_file. destruct (can_open O path); [|by split; split; naive_solver].
  destruct (content O path) as [d|]; [|by split; split; naive_solver].
  destruct (can_close O path); [destruct (load a d)|]; split; split; naive_solver.
Qed.

Lemma lang_files O path data l parse_tag decode : readable O path data ->
  (let '(l', ok) := load_string l data in lang_load_file O l path = Run l' ok 0) /\
  lang_from_file O path = new_from_string data /\
  (let '(l', ok) := load_xml parse_tag decode l data in lang_load_xml_file O parse_tag decode l path = Run l' ok 0) /\
  lang_from_xml_file O parse_tag decode path = lang_from_xml_string parse_tag decode data.
Proof.
  intros H. unfold lang_from_file, lang_load_file, lang_from_xml_file, lang_load_xml_file, lang_from_xml_string, new_from_string, read_file.
  rewrite !(load_file_readable _ _ _ _ _ H). destruct H as (H1 & H2 & H3). rewrite H1, H2.
  destruct (load_string l data) eqn:E1. destruct (load_string (Lang [] [] ∅ ∅) data) eqn:E2.
  destruct (load_xml parse_tag decode l data) eqn:E3. destruct (load_xml parse_tag decode (Lang [] [] ∅ ∅) data) eqn:E4. done.
Qed.
Lemma tmpl_files O path data th t : readable O path data ->
  (let '(th', ok) := compile th t data in tmpl_load_file O th t path = Run th' ok 0) /\
  tmpl_from_file O th path = new_template th data.
Proof.
  intros H. unfold tmpl_from_file, tmpl_load_file, new_template. split.
  - rewrite (load_file_readable _ _ _ _ _ H). by destruct (compile th t data).
  - destruct (talloc th empty_tmpl) as [th1 t1]. rewrite (load_file_readable _ _ _ _ _ H). by destruct (compile th1 t1 data).
Qed.
Lemma lang_file_errors O path l : unreadable O path ->
  r_ok (lang_load_file O l path) = false /\ r_state (lang_load_file O l path) = l /\ lang_from_file O path = None.
Proof.
  intros H. destruct (load_file_unreadable O load_string l path H) as [H1 H2].
  split; [done|]. split; [done|]. unfold lang_from_file, lang_load_file.
  destruct (load_file_unreadable O load_string (Lang [] [] ∅ ∅) path H) as [-> _]. done.
Qed.
Lemma lang_xml_file_errors O path l parse_tag decode : can_open O path = false \/ content O path = None ->
  r_ok (lang_load_xml_file O parse_tag decode l path) = false /\ r_state (lang_load_xml_file O parse_tag decode l path) = l /\
  lang_from_xml_file O parse_tag decode path = None.
Proof.
  intros H. assert (E : read_file O path = None) by (unfold read_file; destruct H as [->| ->]; [done|by destruct (can_open O path)]).
  unfold lang_from_xml_file, lang_load_xml_file. by rewrite E.
Qed.
Lemma tmpl_file_errors O path th t : unreadable O path ->
  r_ok (tmpl_load_file O th t path) = false /\ r_state (tmpl_load_file O th t path) = th /\ (tmpl_from_file O th path).2 = None.
Proof.
  intros H. destruct (load_file_unreadable O (fun th data => compile th t data) th path H) as [H1 H2].
  split; [done|]. split; [done|]. unfold tmpl_from_file, tmpl_load_file. destruct (talloc th empty_tmpl) as [th1 t1].
  destruct (load_file_unreadable O (fun th data => compile th t1 data) th1 path H) as [-> _]. done.
Qed.
Lemma xml_file_handles O path l parse_tag decode : r_open (lang_load_xml_file O parse_tag decode l path) = 0.
Proof. unfold lang_load_xml_file. destruct (read_file O path); [|done]. by destruct (load_xml parse_tag decode l _). Qed.
