(** * What the zero values should do (C97). *)
From Verif Require Import GoBase GoStrings LangModel LangSpec CacheModel ZeroModel.

(** The call stores an entry: it names one, or its text contains one. *)
Definition flat_entry (data : bytes) : Prop := exists line k v, line ∈ (scan_lines data).1 /\ entry_line line k v.
Definition stores_entry (decode : bytes -> option xdoc) (o : lop) : Prop :=
  match o with
  | LSet _ _ | LSetStatus _ _ => True
  | LLoadString data => flat_entry data
  | LLoadXML data => exists d, decode data = Some d /\ x_entries d <> []
  | _ => False
  end.
(** The call takes the lock. *)
Definition locks (decode : bytes -> option xdoc) (o : lop) : Prop :=
  match o with
  | LSetName _ | LSetLanguage _ | LGetName | LGetLanguage => False
  | LLoadString data => flat_entry data
  | LLoadXML data => decode data <> None
  | _ => True
  end.
Definition is_set {D} (o : op D) : bool := match o with OSet _ _ _ _ _ => true | _ => false end.
Definition flushes {D} (o : op D) : Prop := match o with OFlush => True | _ => False end.
(** The answers [rs] of the other calls, with a panic for each Set. *)
Inductive with_panics {D} : list (op D) -> list (result D) -> list (result D) -> Prop :=
  | wp_nil : with_panics [] [] []
  | wp_set o ops rs rs' : is_set o = true -> with_panics ops rs rs' -> with_panics (o :: ops) rs (RPanic :: rs')
  | wp_other o ops r rs rs' : is_set o = false -> with_panics ops rs rs' -> with_panics (o :: ops) (r :: rs) (r :: rs').
Definition others {D} (ops : list (op D)) : list (op D) := base.filter (fun o => is_set o = false) ops.
