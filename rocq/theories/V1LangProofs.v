(** * The language of version 1 against the language of version 2. *)
From Verif Require Import GoBase GoStrings LangModel FileModel V1Lang.
Local Open Scope Z_scope.

Definition drop_status (l : lang) : lang1 := Lang1 (l_name l) (l_tag l) (l_entries l).
Lemma line_drop l line : load_line1 (drop_status l) line = drop_status (load_line l line).
Proof.
  unfold load_line, load_line1. destruct line as [|c line]; [done|]. destruct (cut_at _ _) as [[b a]|]; [|done].
  case_bool_decide; [done|]. by destruct (trim_space b).
Qed.
Lemma lines_drop lines l : fold_left load_line1 lines (drop_status l) = drop_status (fold_left load_line lines l).
Proof. revert l. induction lines as [|x lines IH]; intros l; [done|]. simpl. by rewrite line_drop, IH. Qed.
Section S.
  Context (parse_tag : bytes -> bytes) (decode : bytes -> option xdoc) (quote : bytes -> bytes).
  Notation decode1 := (fun data => without_status <$> decode data).
  Lemma entries_drop es l :
    fold_left (fun l e => lset1 l e.1 e.2) (map fst es) (drop_status l) = drop_status (fold_left add_entry es l).
  Proof. revert l. induction es as [|[[id text] st] es IH]; intros l; [done|]. simpl. by rewrite <- IH. Qed.
  Lemma load_string_drop l data : load_string1 (drop_status l) data = (drop_status (load_string l data).1, (load_string l data).2).
  Proof. unfold load_string, load_string1. destruct (scan_lines data) as [lines ok]. by rewrite lines_drop. Qed.
  Lemma load_xml_drop l data :
    load_xml1 parse_tag decode1 (drop_status l) data = (drop_status (load_xml parse_tag decode l data).1, (load_xml parse_tag decode l data).2).
  Proof.
    unfold load_xml, load_xml1. destruct (decode data) as [d|]; [|done]. cbn [fmap option_fmap option_map without_status x1_entries x1_name x1_lang].
    cbn [fst snd]. f_equal. rewrite <- entries_drop. done.
  Qed.
  Lemma lstep_drop l o : lstep1 parse_tag decode1 quote (drop_status l) o =
    (drop_status (lstep parse_tag decode quote l (lup o)).1, (lstep parse_tag decode quote l (lup o)).2).
  Proof.
    destruct o as [k v|k|k|data|data|n| |t| |order|order]; cbn [lstep1 lstep lup]; try done.
    - rewrite load_string_drop. by destruct (load_string l data).
    - rewrite load_xml_drop. by destruct (load_xml parse_tag decode l data).
  Qed.
  Lemma lrun_drop l ops : lrun1 parse_tag decode1 quote (drop_status l) ops =
    (drop_status (lrun parse_tag decode quote l (map lup ops)).1, (lrun parse_tag decode quote l (map lup ops)).2).
  Proof.
    revert l. induction ops as [|o ops IH]; intros l; [done|]. cbn [lrun1 lrun map]. rewrite lstep_drop.
    destruct (lstep parse_tag decode quote l (lup o)) as [l1 r]. cbn [fst snd]. rewrite IH.
    by destruct (lrun parse_tag decode quote l1 (map lup ops)).
  Qed.
  Lemma v1_lang_same name tag ops :
    (lrun1 parse_tag decode1 quote (new_lang1 name tag) ops).2 = (lrun parse_tag decode quote (new_lang name tag) (map lup ops)).2.
  Proof. change (new_lang1 name tag) with (drop_status (new_lang name tag)). by rewrite lrun_drop. Qed.
  (** Files: version 1 leaves the handle of an XML file that cannot be read. *)
  Lemma v1_xml_file O l path :
    let r1 := load_xml_file1 parse_tag decode1 O (drop_status l) path in let r2 := lang_load_xml_file O parse_tag decode l path in
    r_open r2 = 0 /\
    (can_close O path = true -> r_state r1 = drop_status (r_state r2) /\ r_ok r1 = r_ok r2) /\
    (can_open O path = true -> content O path = None -> r_open r1 = 1).
  Proof.
    cbn zeta. unfold load_xml_file1, lang_load_xml_file, load_file, read_file.
    destruct (can_open O path); [|done]. destruct (content O path) as [data|]; [|done].
    pose proof (load_xml_drop l data) as H. destruct (load_xml parse_tag decode l data) as [l2 ok]. cbn [fst snd] in H.
    split; [done|]. split; [|done]. intros ->. by rewrite H.
  Qed.
End S.
