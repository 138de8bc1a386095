(** * Property theorems about executions of templates at the same time (C112). *)
From Verif Require Import GoBase DatasetModel LangModel DatasetSpec DatasetProofs3 TemplateModel TemplateSpec RenderSpec RenderProofs10
  ParModel ParProofs ParSpec ParProofs4 ParProofs5.

(** ** C112 *)
(** The accesses of an execution that is alone add up to Execute ... *)
Theorem C112_alone : forall F ord langs th n t data h, alone (p_execute F ord langs th n t data) h = execute F ord langs th n h t data.
Proof. exact alone_execute. Qed.
Print Assumptions C112_alone.
(** ... and goroutines that make accesses in turn come to an end in every order; none waits for another. *)
Theorem C112_ends : forall (h : heap) (ps : list (act bytes)),
  Acc (flip par_step) (h, ps) /\ ((forall s, ~ par_step (h, ps) s) -> Forall (fun p => exists o, p = lift o) ps).
Proof. exact par_stops. Qed.
Print Assumptions C112_ends.
(** At any moment of executions at the same time, in any number and any order, the data are as at
    the beginning but for the counters of elements of collections in the data of one that has a loop. *)
Theorem C112_counters : forall F ord langs th h0 jobs n h ps, order_ok ord -> compiled th ->
  rtc par_step (h0, started F ord langs th n jobs) (h, ps) -> forall x, h !! x = h0 !! x \/
  exists m z i j, h0 !! x = Some (ODs m) /\ h !! x = Some (ODs (<[B ".counter" := VInt KInt z]> m)) /\ jobs !! i = Some j /\ member h0 j.2 x /\ ~ loop_free th j.1.
Proof. exact (fun F ord langs th h0 jobs n h ps Ho Hc => par_counters F ord Ho langs th Hc h0 jobs n h ps). Qed.
Print Assumptions C112_counters.
(** An execution that looks at no counter ends as if it were alone, whatever the others execute and
    whatever data they share. *)
Theorem C112_quiet : forall F ord langs th h0 jobs n i j h ps, order_ok ord -> compiled th -> jobs !! i = Some j -> quiet th h0 j ->
  rtc par_step (h0, started F ord langs th n jobs) (h, ps) ->
  exists p, ps !! i = Some p /\ forall o, p = lift o -> o = said (execute F ord langs th n h0 j.1 j.2).
Proof. exact (fun F ord langs th h0 jobs n i j h ps Ho Hc => par_quiet F ord Ho langs th Hc h0 jobs n i j h ps). Qed.
Print Assumptions C112_quiet.
(** So does any execution when each of the others has no loop or counts nothing in its data. *)
Theorem C112_apart : forall F ord langs th h0 jobs n i j h ps, order_ok ord -> compiled th -> jobs !! i = Some j ->
  (forall k other, k <> i -> jobs !! k = Some other -> apart th h0 j other) ->
  rtc par_step (h0, started F ord langs th n jobs) (h, ps) ->
  exists p, ps !! i = Some p /\ forall o, p = lift o -> o = said (execute F ord langs th n h0 j.1 j.2).
Proof. exact (fun F ord langs th h0 jobs n i j h ps Ho Hc => par_private F ord Ho langs th Hc h0 jobs n i j h ps). Qed.
Print Assumptions C112_apart.
(** Otherwise not, with locks on all shared objects: a text that no order one after the other gives. *)
Theorem C112_noticed_refuted : exists th t h d1 d2, built th /\ forall F langs,
  (exists h', rtc par_step (h, started F ord0 langs th 30 [(t, Some d1); (t, Some d2)]) (h', [Ret (B "2x 2y "); Ret (B "1y 2x ")])) /\
  said (execute F ord0 langs th 30 h t (Some d1)) = Ok (B "1x 2y ") /\
  said (execute F ord0 langs th 30 (after (execute F ord0 langs th 30 h t (Some d2))) t (Some d1)) = Ok (B "1x 2y ").
Proof. exact noticed. Qed.
Print Assumptions C112_noticed_refuted.
(** The same data with a template that prints names only ... *)
Example C112_quiet_case : built (page names).1 /\ quiet (page names).1 shared ((page names).2, Some 1%positive) /\ quiet (page names).1 shared ((page names).2, Some 5%positive) /\
  forall F langs, said (execute F ord0 langs (page names).1 30 shared (page names).2 (Some 1%positive)) = Ok (B "x y ") /\
    said (execute F ord0 langs (page names).1 30 shared (page names).2 (Some 5%positive)) = Ok (B "y x ").
Proof. exact quiet_case. Qed.
(** ... and a template that prints everything, with data that share a dataset. *)
Example C112_apart_case : built (page report).1 /\ apart (page report).1 separate ((page report).2, Some 1%positive) ((page report).2, Some 5%positive) /\
  apart (page report).1 separate ((page report).2, Some 5%positive) ((page report).2, Some 1%positive) /\
  (exists x, region separate (Some 1%positive) x /\ region separate (Some 5%positive) x) /\
  forall F langs, said (execute F ord0 langs (page report).1 30 separate (page report).2 (Some 5%positive)) =
    Ok (B "1z xcore.XDataset{site:S}XDatasetCollectionTS[0:xcore.XDataset{.counter:1 n:z} ]").
Proof. exact apart_case. Qed.
