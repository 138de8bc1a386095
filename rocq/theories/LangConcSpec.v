(** * What can be expected of a language that several goroutines use. *)
From Verif Require Import GoBase GoStrings LangModel LangSpec LangConc.

(** The call writes the value [v] for the entry [k], somewhere. *)
Definition offers (decode : bytes -> option xdoc) (c : lcall) (k v : bytes) : Prop :=
  match c with
  | KSet k' v' => k' = k /\ v' = v
  | KLoadString data => exists a raw b line, raw_lines data (a ++ raw :: b) /\ chomp raw line /\ entry_line line k v
  | KLoadXML data => exists d s, decode data = Some d /\ (k, v, s) ∈ x_entries d
  | _ => False
  end.
Definition reads_only (c : lcall) : Prop := match c with KGet _ | KGetStatus _ | KGetEntries => True | _ => False end.
Definition loads_flat (c : lcall) : Prop := match c with KLoadString _ => True | _ => False end.
Definition loads_doc (c : lcall) : Prop := match c with KLoadXML _ => True | _ => False end.
(** All calls of a history satisfy [P]. *)
Definition all_calls (P : lcall -> Prop) (h : list levent) : Prop := forall t c, ECall t c ∈ h -> P c.
Definition all_idle (g : lconf) : Prop := forall t, lc_thr g t = LIdle.
(** The table that the text alone would give. *)
Definition alone (data : bytes) : table := l_entries (load_string (new_lang [] []) data).1.
(** Entries and statuses after documents loaded one after the other. *)
Definition load_docs (m s : table) (docs : list xdoc) : table * table :=
  fold_left (fun ms e => let '(id, text, status) := e in (<[id := text]> ms.1, <[id := status]> ms.2)) (concat (map x_entries docs)) (m, s).
