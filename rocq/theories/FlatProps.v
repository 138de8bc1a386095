(** * Property theorems about flat language texts put together (C94).
    XLanguage.LoadString, v2/xlanguage.go:145-178. *)
From Verif Require Import GoBase GoStrings GoStringsProofs LangModel LangSpec LangProofs FlatSpec FlatProofs.

(** C94: loading two texts joined by a line feed is loading the first, then, if it succeeded, the second. *)
Theorem C94_concat : forall l a b, load_string l (a ++ lf :: b) =
  (let '(l1, ok) := load_string l a in if ok then load_string l1 b else (l1, false)).
Proof. exact load_string_app. Qed.
Print Assumptions C94_concat.
(** A line feed at the end changes nothing. *)
Theorem C94_last_newline : forall l a, load_string l (a ++ [lf]) = load_string l a.
Proof. exact load_string_last. Qed.
Print Assumptions C94_last_newline.
(** Loading a text again changes nothing, even one whose load failed. *)
Theorem C94_twice : forall l a l1 ok, load_string l a = (l1, ok) -> load_string l1 a = (l1, ok).
Proof. exact load_string_twice. Qed.
Print Assumptions C94_twice.
(** Lines ended by a carriage return and a line feed load as lines ended by a line feed, when they still fit in the scanner's buffer. *)
Theorem C94_crlf : forall l data raws, raw_lines data raws -> Forall (fun x => short (x ++ [cr])) raws ->
  load_string l (crlf data) = load_string l data.
Proof. exact load_crlf. Qed.
Print Assumptions C94_crlf.
(** Without that room they need not: one byte more per line is enough to make the load fail. *)
Theorem C94_crlf_always_refuted : exists data, (load_string (new_lang [] []) data).2 = true /\ (load_string (new_lang [] []) (crlf data)).2 = false.
Proof. exists (B "a=" ++ repeat (byte 120) (N.to_nat 65533) ++ [lf]). by vm_compute. Qed.
Print Assumptions C94_crlf_always_refuted.
(** The order of the lines does not matter, if no two of them give one name different texts. *)
Theorem C94_order : forall l ls ls', ls ≡ₚ ls' -> Forall (fun x => lf ∉ x /\ short x) ls ->
  (forall x y k v w, x ∈ ls -> y ∈ ls -> entry_line x k v -> entry_line y k w -> v = w) ->
  load_string l (lines_text ls) = load_string l (lines_text ls').
Proof. exact load_perm. Qed.
Print Assumptions C94_order.
(** With two texts for one name it does. *)
Theorem C94_order_condition_needed : exists l ls ls', ls ≡ₚ ls' /\ load_string l (lines_text ls) <> load_string l (lines_text ls').
Proof.
  exists (new_lang [] []), [B "a=1"; B "a=2"], [B "a=2"; B "a=1"]. split; [constructor|].
  intros E. apply (f_equal (fun r => l_entries r.1 !! B "a")) in E. by vm_compute in E.
Qed.
Print Assumptions C94_order_condition_needed.
Example C94_case :
  let a := B "x=1" ++ [lf] ++ B " y = two " in let b := B "# note" ++ [lf] ++ B "x=3" in let l := new_lang (B "n") (B "en") in
  let r := load_string l (crlf (a ++ lf :: b)) in
  r = load_string l (a ++ lf :: b) /\ crlf (a ++ lf :: b) <> a ++ lf :: b /\
  r.2 = true /\ l_entries r.1 !! B "x" = Some (B "3") /\ l_entries r.1 !! B "y" = Some (B "two") /\ size (l_entries r.1) = 2.
Proof. by vm_compute. Qed.
