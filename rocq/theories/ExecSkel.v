(** * Skeletons of the methods of XTemplate (v2/xtemplate.go): none of them takes a lock (C80).

    [Tree]: the fields of the templates of a tree (Root, SubTemplates, Father); [Data n]: the
    plain datasets and collections of the data number [n] handed to Execute.  The stack of
    datasets and the text are private to a call. *)
From Verif Require Import GoBase SkelModel.

Inductive xvar := Tree | Data (n : nat).
Notation xc := (cmd xvar).
(** v2/xtemplate.go:303-492 [Execute], [injector]: the compiled list, GetTemplate, the reads of the data
    and, for each element of a loop (line 411), Set(".counter"). *)
Definition x_Execute (n : nat) : xc := Star (Alt (Rd Tree) (Alt (Rd (Data n)) (Wr (Data n)))).
(** The same without an executed loop (C53_loop_free: no Set is reached). *)
Definition x_Execute_loop_free (n : nat) : xc := Star (Alt (Rd Tree) (Rd (Data n))).
(** 285-300 [GetTemplate], 495-518 [String], [GoString]. *)
Definition x_GetTemplate : xc := Star (Rd Tree).
Definition x_String : xc := Star (Rd Tree).
(** 129-273 [LoadString], [compile]: the sub templates are added, then Root is set. *)
Definition x_LoadString : xc := seq [Star (Alt (Rd Tree) (Wr Tree)); opt (Wr Tree)].
(** 276-282 [AddTemplate]. *)
Definition x_AddTemplate : xc := seq [Rd Tree : xc; opt (Wr Tree); Wr Tree : xc; Wr Tree : xc].
(** 521-541 [Clone]: line 534 sets the father of the sub templates of the original. *)
Definition x_Clone : xc := seq [Star (Rd Tree); Star (Alt (Rd Tree) (Wr Tree)); Rd Tree : xc].

(** Every call of thread [t] is a path of a method [t] may call. *)
Definition calls_by (may : nat -> xc -> Prop) (acts : list (act xvar)) : Prop :=
  Forall (fun a => match a with Begin t p => exists c, may t c /\ path c p | Go _ => True end) acts.
(** The calls meant to be safe on a shared, compiled template: look-ups and printing by anyone;
    Execute on data used by its thread alone ([owner n = Some t]); loop free Execute on shared data. *)
Definition executing (owner : nat -> option nat) (t : nat) (c : xc) : Prop :=
  c = x_GetTemplate \/ c = x_String \/
  (exists n, owner n = Some t /\ c = x_Execute n) \/
  (exists n, owner n = None /\ c = x_Execute_loop_free n).
