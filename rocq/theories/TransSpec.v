(** * The same page in every language (C120). *)
From Verif Require Import GoBase DatasetModel LangModel TemplateModel TemplateSpec RenderSpec HoleSpec.

(** A page: words of the program, and entries that the language fills in. *)
Inductive part := Fixed (s : bytes) | Entry (name : bytes).
(** An entry in a language: its text there; nothing if the language has no such entry or there is no language. *)
Definition spoken (lg : option lang) (p : part) : bytes :=
  match p, lg with
  | Fixed s, _ => s
  | Entry name, Some g => match l_entries g !! name with Some v => v | None => [] end
  | Entry _, None => []
  end.
Definition translation (lg : option lang) (page : list part) : bytes := concat (map (spoken lg) page).
(** [name] is a ##name## of [t] or of a template that can be called from it. *)
Definition entry_of (th : theap) (t : loc) (name : bytes) : Prop :=
  exists x T ps, reaches th t x /\ th !! x = Some T /\ t_root T = Some ps /\ stored (TLang name) ∈ ps.
(** What an execution does, with the page in place of the text. *)
Definition in_language (lg : option lang) (r : outcome (heap * list part)) : outcome (heap * bytes) :=
  match r with Ok (h, page) => Ok (h, translation lg page) | Panic => Panic | NoFuel => NoFuel end.
Definition entries_from (th : theap) (t : loc) (page : list part) : Prop := forall name, Entry name ∈ page -> entry_of th t name.
