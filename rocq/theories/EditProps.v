(** * Property theorems about templates that are loaded and extended while they are in use (C118). *)
From Verif Require Import GoBase DatasetModel LangModel DatasetSpec TemplateModel TemplateSpec RenderSpec RenderProofs10 CopyModel CopyProofs4 EditModel EditSpec EditProofs EditProofs3 EditProofs4 EditProofs5.

(** ** C118 *)
(** The accesses of a goroutine that is alone add up to LoadString and to AddTemplate; goroutines come to an end. *)
Theorem C118_alone : forall th t data, is_Some (th !! t) -> talone (t_load t data) th = Ok (compile th t data).
Proof. exact (fun th t data => alone_load th t data). Qed.
Print Assumptions C118_alone.
Theorem C118_alone_add : forall th t name x, is_Some (th !! t) -> is_Some (th !! x) -> talone (t_add t name x) th = Ok (add_template th t name x, tt).
Proof. exact (fun th t name x => alone_add th t name x). Qed.
Print Assumptions C118_alone_add.
Theorem C118_ends : forall (th : theap) (ps : list (tact (list reply))),
  Acc (flip tstep) (th, ps) /\ ((forall s, ~ tstep (th, ps) s) -> Forall (fun p => exists o, p = tlift o) ps).
Proof. exact (fun th ps => copy_stops th ps). Qed.
Print Assumptions C118_ends.
(** Whatever goroutines call on templates they share, none of them panics. *)
Theorem C118_no_panic : forall F ord langs n th (jobs : list (list loc * heap * list call)) th' ps i, closed th ->
  (forall held h cs, (held, h, cs) ∈ jobs -> (forall t, t ∈ held -> is_Some (th !! t)) /\ sound_calls h cs) ->
  rtc tstep (th, map (fun j => t_calls F ord langs n j.1.1 j.1.2 j.2) jobs) (th', ps) -> ps !! i <> Some TFail.
Proof. exact (fun F ord langs n th jobs th' ps i => calls_no_panic F ord langs n th jobs th' ps i). Qed.
Print Assumptions C118_no_panic.
(** An execution shows the text that its template had, or one of the texts without boxes that are loaded meanwhile, all of it;
    what happens to other templates does not matter. *)
Theorem C118_swap : forall F ord langs th V roles n th' ps i h t data o, group th V -> (forall r, r ∈ roles -> fair th V r) ->
  rtc tstep (th, map (t_role F ord langs n) roles) (th', ps) -> roles !! i = Some (Reader h t data) -> (ps !! i) ≫= ended = Some o ->
  exists thv, version th roles t thv /\ o = text_reply (execute F ord langs thv n h t data).
Proof. exact (fun F ord langs th V roles n th' ps i h t data o Hg Hf => swap F ord langs th V Hg roles Hf n th' ps i h t data o). Qed.
Print Assumptions C118_swap.
(** With boxes, an execution can show half of the old text and half of the new one. *)
Theorem C118_mixed_refuted : exists th t data, built th /\ forall F langs,
  seen F langs th t = Ok (B "11") /\ seen F langs (compile th t data).1 t = Ok (B "22") /\
  exists th', rtc tstep (th, map (t_role F ord0 langs 30) [Reader ∅ t None; Reload t data]) (th', [TRet [Text (B "12")]; TRet [Loaded true]]).
Proof. exact mixed. Qed.
Print Assumptions C118_mixed_refuted.
(** Two goroutines add a sub template to the same template: one of the two is not there in the end. *)
Theorem C118_add_lost_refuted : exists th t x y, closed th /\ is_Some (th !! t) /\ is_Some (th !! x) /\ is_Some (th !! y) /\
  has (add_template (add_template th t (B "a") x) t (B "b") y) t "a" = true /\ has (add_template (add_template th t (B "b") y) t (B "a") x) t "a" = true /\
  forall F langs, exists th', rtc tstep (th, [t_calls F ord0 langs 30 [t; x] ∅ [Add 0 (B "a") 1]; t_calls F ord0 langs 30 [t; y] ∅ [Add 0 (B "b") 1]]) (th', [TRet []; TRet []]) /\
    has th' t "a" = false.
Proof. exact add_lost. Qed.
Print Assumptions C118_add_lost_refuted.
(** Two goroutines load the same template: the text of one is left with the box of the other. *)
Theorem C118_loads_refuted : exists th t d1 d2, built th /\ is_Some (th !! t) /\ forall F langs,
  seen F langs (compile (compile th t d1).1 t d2).1 t = Ok (B "<2>") /\ seen F langs (compile (compile th t d2).1 t d1).1 t = Ok (B "1") /\
  exists th', rtc tstep (th, [t_calls F ord0 langs 30 [t] ∅ [Load 0 d1]; t_calls F ord0 langs 30 [t] ∅ [Load 0 d2]]) (th', [TRet [Loaded true]; TRet [Loaded true]]) /\
    seen F langs th' t = Ok (B "2").
Proof. exact loads_mixed. Qed.
Print Assumptions C118_loads_refuted.
(** Goroutines as in [C118_swap], with two texts to show, and calls as in [C118_no_panic]. *)
Example C118_case : exists th t, closed th /\ group th (fun x => is_Some (th !! x)) /\ (forall r, r ∈ swapping t -> fair th (fun x => is_Some (th !! x)) r) /\
  forall F langs, seen F langs th t = Ok (B "11") /\ seen F langs (compile th t (B "(&&a&&)")).1 t = Ok (B "(1)").
Proof. exact swap_case. Qed.
Example C118_case_calls : exists th t, closed th /\ is_Some (th !! t) /\ sound_calls some_data any_calls.
Proof. exact no_panic_case. Qed.
