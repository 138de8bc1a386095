(** * Executing templates while the languages change (C121): what may be read. *)
From Verif Require Import GoBase DatasetModel LangModel TemplateModel TemplateSpec RenderSpec HoleSpec TransSpec SpeakModel.

(** [H m l] is language [l] at moment [m].  The page read from moment [i] on: every entry at some moment, one after the
    other in the order of the page; the last one before moment [j]. *)
Inductive during (H : nat -> nat -> lang) (l : nat) : nat -> list part -> nat -> bytes -> Prop :=
| du_nil i : during H l i [] i []
| du_fixed i s page j out : during H l i page j out -> during H l i (Fixed s :: page) j (s ++ out)
| du_entry i m name page j out : i <= m -> during H l (S m) page j out ->
    during H l i (Entry name :: page) j (spoken (Some (H m l)) (Entry name) ++ out).
(** [T] steps of the goroutines; the languages at each moment. *)
Definition hall_course (T : nat) (path : nat -> (nat -> lang) * list goroutine) : Prop := forall m, m < T -> hall_step (path m) (path (S m)).
Definition history (path : nat -> (nat -> lang) * list goroutine) : nat -> nat -> lang := fun m => (path m).1.
(** The languages as a lookup of values: those that are [known]. *)
Definition as_langs (known : nat -> bool) (ls : nat -> lang) : nat -> option lang := fun k => if known k then Some (ls k) else None.
