(** * Property theorems about languages and caches that were not made by New (C97). *)
From Verif Require Import GoBase GoStrings LangModel LangSpec CacheModel ZeroModel ZeroSpec ZeroProofs.

(** ** C97 *)
(** The model with nil maps agrees with LangModel on languages that were made. *)
Theorem C97_made : forall parse_tag decode quote ops l,
  zrun parse_tag decode quote (made_lang l) ops = (made_lang (lrun parse_tag decode quote l ops).1, map ZDone (lrun parse_tag decode quote l ops).2).
Proof. exact made_run. Qed.
Print Assumptions C97_made.
(** As long as nothing is stored, &XLanguage{} answers as an empty language made by NewXLanguage. *)
Theorem C97_language_reads : forall parse_tag decode quote tag ops, Forall (fun o => ~ stores_entry decode o) ops ->
  (zrun parse_tag decode quote (zero_lang tag) ops).2 = map ZDone (lrun parse_tag decode quote (new_lang [] tag) ops).2.
Proof. exact reads_as_empty. Qed.
Print Assumptions C97_language_reads.
(** Every store panics, as long as no flat text with an entry was loaded; it stays empty for ever. *)
Theorem C97_language_stores : forall parse_tag decode quote tag ops o, stores_entry decode o ->
  ~ (exists data, LLoadString data ∈ ops /\ flat_entry data) ->
  (zrun parse_tag decode quote (zero_lang tag) (ops ++ [o])).2 = (zrun parse_tag decode quote (zero_lang tag) ops).2 ++ [ZPanic].
Proof. exact stores_fail. Qed.
Print Assumptions C97_language_stores.
Theorem C97_language_empty : forall parse_tag decode quote tag ops k, let l := (zrun parse_tag decode quote (zero_lang tag) ops).1 in
  (zstep parse_tag decode quote l (LGet k)).2 = ZBlock \/
  ((zstep parse_tag decode quote l (LGet k)).2 = ZDone (LText []) /\ (zstep parse_tag decode quote l (LGetStatus k)).2 = ZDone (LText [])).
Proof. exact stays_empty. Qed.
Print Assumptions C97_language_empty.
(** The panic of LoadString, and only this one, leaves the lock taken: the calls that need it wait for ever exactly after it. *)
Theorem C97_lock_kept : forall parse_tag decode quote tag ops o, locks decode o ->
  ((zrun parse_tag decode quote (zero_lang tag) (ops ++ [o])).2 = (zrun parse_tag decode quote (zero_lang tag) ops).2 ++ [ZBlock] <->
   exists data, LLoadString data ∈ ops /\ flat_entry data).
Proof. exact lock_kept. Qed.
Print Assumptions C97_lock_kept.
(** So a recovered panic is followed by a deadlock. *)
Theorem C97_lock_released_refuted : forall parse_tag decode quote tag,
  (zrun parse_tag decode quote (zero_lang tag) [LSet (B "a") (B "b"); LGet (B "a"); LLoadString (B "a=b"); LGet (B "a")]).2 =
  [ZPanic; ZDone (LText []); ZPanic; ZBlock].
Proof. reflexivity. Qed.
Print Assumptions C97_lock_released_refuted.
(** &XCache{}: before the first Flush each Set panics without effect, and the other calls answer as those of an empty cache made by NewXCache. *)
Theorem C97_cache_before_flush : forall D (dnil : D) m e ops, Forall (fun o => ~ flushes o) ops ->
  with_panics ops (map snd (run dnil (new_cache m e) (others ops)).2) (zcrun dnil (zero_cache m e) ops).2.
Proof. exact @before_flush. Qed.
Print Assumptions C97_cache_before_flush.
(** Flush makes it a cache like any other. *)
Theorem C97_cache_after_flush : forall D (dnil : D) m e ops1 ops2, Forall (fun o => ~ flushes o) ops1 -> exists m' e',
  (run dnil (new_cache m e) (others ops1)).1 = new_cache m' e' /\
  (zcrun dnil (zero_cache m e) (ops1 ++ OFlush :: ops2)).2 = (zcrun dnil (zero_cache m e) ops1).2 ++ RUnit :: map snd (run dnil (new_cache m' e') ops2).2.
Proof. exact @flush_makes. Qed.
Print Assumptions C97_cache_after_flush.

(** An entry in a text, and a history of a zero cache. *)
Example C97_entry_text : flat_entry (B "# title" ++ [lf] ++ B "a = b").
Proof.
  exists (B "a = b"), (B "a"), (B "b"). split; [vm_compute; right; left|].
  pose proof (line_entry_spec (B "a = b")) as H. by vm_compute in H |- *.
Qed.
Example C97_cache_example : (zcrun (B "") (zero_cache 0 0)
  [OCount; OSet (B "k") (B "v") 1 1 (fun _ => 1%Z); OGet (B "k") None 2 2 2; OFlush; OSet (B "k") (B "v") 3 3 (fun _ => 3%Z); OGet (B "k") None 4 4 4; OCount]).2 =
  [RInt 0; RPanic; RGet (B "") false; RUnit; RUnit; RGet (B "v") false; RInt 1].
Proof. by vm_compute. Qed.
