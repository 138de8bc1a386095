(** * Texts made of lines (C94). *)
From Verif Require Import GoBase GoStrings.

(** Lines, each ended by a line feed. *)
Definition lines_text (ls : list bytes) : bytes := concat (map (fun l => l ++ [lf]) ls).
(** Every line feed preceded by a carriage return. *)
Definition crlf (s : bytes) : bytes := concat (map (fun c => if decide (c = lf) then [cr; lf] else [c]) s).
