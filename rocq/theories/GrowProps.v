(** * Property theorems about executions while the data grow (C119). *)
From Verif Require Import GoBase DatasetModel LangModel DatasetSpec TemplateModel TemplateSpec RenderSpec RenderProofs10 ParModel ParSpec MeanSpec MeanProofs4
  GrowSpec GrowProofs GrowProofs2 GrowProofs3.

(** ** C119 *)
(** Beside goroutines that set and delete fields, make objects and push datasets, no execution panics. *)
Theorem C119_no_panic : forall F ord langs th n t d h0 (ps0 : list (act bytes)) h ps i, closed th -> is_Some (th !! t) -> sound h0 -> dataset_at h0 d ->
  ps0 !! i = Some (p_execute F ord langs th n t (Some d)) -> Forall (careful h0) ps0 -> rtc par_step (h0, ps0) (h, ps) -> ps !! i <> Some Fail.
Proof. exact grow_no_panic. Qed.
Print Assumptions C119_no_panic.
(** Set, Del, Push of a dataset that is there or of a new one, and executions themselves are such goroutines. *)
Theorem C119_careful : forall h,
  (forall n d k v, careful h (write (fun h => dset n h d k v))) /\ (forall n d k, careful h (write (fun h => ddel n h d k))) /\
  (forall c d, dataset_at h d -> careful h (write (fun h => cpush h c (Some d)))) /\
  (forall new c ms, (forall h, h !! new h = None) -> careful h (push_all new c ms)) /\
  (forall F ord langs th n t d, closed th -> is_Some (th !! t) -> dataset_at h d -> careful h (p_execute F ord langs th n t (Some d))).
Proof.
  exact (fun h => conj (careful_set h) (conj (careful_del h) (conj (careful_push h) (conj (fun new c ms Hn => careful_push_all new c ms Hn h)
    (fun F ord langs th n t d => careful_execute F ord langs th n t d h))))).
Qed.
Print Assumptions C119_careful.
(** The other goroutines only let the data grow: the data stay sound, datasets stay, collections keep their elements in their places. *)
Theorem C119_grows : forall (s s' : heap * list (act bytes)), rtc par_step s s' -> sound s.1 /\ Forall (careful s.1) s.2 -> sound s'.1 /\ grown s.1 s'.1.
Proof. exact (fun s s' H Hc => match careful_steps s s' H Hc with conj (conj H1 _) H2 => conj H1 H2 end). Qed.
Print Assumptions C119_grows.
(** A loop shows every element of the collection as it is at the last Count, once and in order; among them all that were there when the loop began. *)
Theorem C119_loop : forall F ord th lg T (path : nat -> heap * list (act bytes)) i sc t b x c j out m0 xs0, course T path -> sound (path 0).1 ->
  Forall (careful (path 0).1) (path 0).2 -> passes F ord th lg (fun m => (path m).1) i sc t b x 0 c j out -> j <= T -> m0 <= i -> collection_at (path m0).1 c xs0 ->
  exists m xs os, j = S m /\ collection_at (path m).1 c xs /\ xs0 `prefix_of` xs /\ out = concat os /\ length os = length xs /\ None ∉ xs /\
    forall k d, xs !! k = Some (Some d) -> exists i1 i2 m1 q o, i <= i1 /\ i2 <= m1 /\ picks th (fun m => (path m).1) i1 t b k c q i2 /\ counts (path m1).1 d k (path (S m1)).1 /\
      exists j1, j1 <= m /\ shows F ord th lg (fun m => (path m).1) (S m1) (d :: sc) (or_else q x) j1 o /\ os !! k = Some o.
Proof. exact loop_all. Qed.
Print Assumptions C119_loop.
(** The list at the beginning of the loop gives no bound: as long as elements come, the loop goes on. *)
Theorem C119_endless_refuted : exists p h, built p.1 /\ sound h /\ forall F langs, at_end F langs p (Ok h) = Ok (B "x") /\
  forall new K, (forall h, h !! new h = None) -> exists n h',
    rtc par_step (h, [p_execute F ord0 langs p.1 n p.2 (Some 1%positive); push_all new 2 (replicate K one_field)]) (h', [Ret (concat (replicate (S K) (B "x"))); Ret []]).
Proof. exact endless. Qed.
Print Assumptions C119_endless_refuted.
(** While x y z is printed, y is set to Y and w is pushed. *)
Example C119_case : forall F langs, let e := p_execute F ord0 langs listing.1 30 listing.2 (Some 1%positive) in
  compiled listing.1 /\ closed listing.1 /\ is_Some (listing.1 !! listing.2) /\ sound three /\ dataset_at three 1 /\ Forall (careful three) [e; writer] /\
  exists h', rtc par_step (three, [e; writer]) (h', [Ret (B "xYzw"); Ret []]).
Proof. exact growing_case. Qed.
