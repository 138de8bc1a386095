(** * Property theorems about executions of templates while other goroutines change the data (C116). *)
From Verif Require Import GoBase DatasetModel LangModel DatasetSpec DatasetProofs3 TemplateModel TemplateSpec RenderSpec RenderProofs10 HoleSpec
  ParModel ParSpec ParProofs5 MeanSpec MeanProofs2 MeanProofs3 MeanProofs4.

(** ** C116 *)
(** Whatever the other goroutines do, the text of an execution is made of looks at the data that come
    one after the other in the order of the elements, each of them at some moment. *)
Theorem C116_meaning : forall F ord langs th n t d (path : nat -> heap * list (act bytes)) T i out, compiled th -> course T path ->
  (path 0).2 !! i = Some (p_execute F ord langs th n t (Some d)) -> (path T).2 !! i = Some (Ret out) ->
  exists m lg j, m < j /\ j <= T /\ language_of langs (path m).1 d lg /\ shows F ord th lg (fun m => (path m).1) (S m) [d] t j out.
Proof. exact execute_mean. Qed.
Print Assumptions C116_meaning.
(** If the others change only entries under keys that the template does not look at, and whatever
    cannot be seen from the data without these keys, the text is the one of an execution alone. *)
Theorem C116_unseen : forall F ord langs th n t d (W : bytes -> Prop) h0 ps0 h ps i out, compiled th ->
  ps0 !! i = Some (p_execute F ord langs th n t (Some d)) -> rtc par_step (h0, ps0) (h, ps) -> ps !! i = Some (Ret out) ->
  (forall k, W k -> ">"%char ∉ k) -> W (B ".counter") -> ~ W (B "#") -> Forall (tame W (seen W h0 d)) ps0 ->
  (forall x Tx l, reaches th t x -> th !! x = Some Tx -> t_root Tx = Some (map stored l) -> Forall (blind W h0 d) l) ->
  exists h', executes F ord langs th h0 t d h' out.
Proof. exact tame_unseen. Qed.
Print Assumptions C116_unseen.
(** Executions and assignments to these keys are such goroutines. *)
Theorem C116_tame : forall (W : bytes -> Prop) (D : loc -> Prop), W (B ".counter") ->
  (forall F ord langs th n t data, tame W D (p_execute F ord langs th n t data)) /\
  (forall n d k v, W k -> tame W D (write (fun h => dset n h d k v))).
Proof. exact (fun W D Hw => conj (tame_execute W D Hw) (tame_set W D)). Qed.
Print Assumptions C116_tame.
(** The text is not that of the data at one moment: a is set before b, the old a is printed with the new b. *)
Theorem C116_snapshot_refuted : exists p h, built p.1 /\ forall F langs,
  (exists h', rtc par_step (h, [p_execute F ord0 langs p.1 30 p.2 (Some 1%positive); set_both]) (h', [Ret (B "01"); Ret []])) /\
  at_end F langs p (Ok h) = Ok (B "00") /\ at_end F langs p (set_one "a" h) = Ok (B "10") /\ at_end F langs p (then_ (set_one "a" h) (set_one "b")) = Ok (B "11").
Proof. exact no_snapshot. Qed.
Print Assumptions C116_snapshot_refuted.
(** Thread safe collections that change during a loop: Pop makes Execute panic, Shift makes it leave out
    an element that stays, Unshift makes it print an element twice. *)
Theorem C116_loop_refuted : exists p h, built p.1 /\ forall F langs,
  let beside w r := exists h', rtc par_step (h, [p_execute F ord0 langs p.1 30 p.2 (Some 1%positive); changes w]) (h', [r; Ret []]) in
  at_end F langs p (Ok h) = Ok (B "xyz") /\
  (at_end F langs p (pop h) = Ok (B "xy") /\ beside pop Fail) /\
  (at_end F langs p (shift h) = Ok (B "yz") /\ beside shift (Ret (B "xz"))) /\
  (at_end F langs p (unshift h) = Ok (B "zxyz") /\ beside unshift (Ret (B "xxyz"))).
Proof. exact loop_changes. Qed.
Print Assumptions C116_loop_refuted.
(** A clock in an element is set while the list is printed; the template does not print it. *)
Example C116_case : forall F langs, let th := (page names).1 in let t := (page names).2 in
  compiled th /\ Forall (tame (fun k => k ∈ clocked) (seen (fun k => k ∈ clocked) shared 1%positive)) [p_execute F ord0 langs th 30 t (Some 1%positive); tick] /\
  (forall x Tx l, reaches th t x -> th !! x = Some Tx -> t_root Tx = Some (map stored l) -> Forall (blind (fun k => k ∈ clocked) shared 1%positive) l) /\
  seen (fun k => k ∈ clocked) shared 1%positive 7%positive /\
  exists h, rtc par_step (shared, [p_execute F ord0 langs th 30 t (Some 1%positive); tick]) (h, [Ret (B "x y "); Ret []]) /\
    dget 30 h 3%positive (B "clock") = Ok (Some (VStr (B "12:00"))).
Proof. exact clock_case. Qed.
