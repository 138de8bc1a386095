(** * C127: executing templates on nested thread safe data. *)
From Verif Require Import GoBase LangModel DatasetModel DatasetSpec DatasetProofs3 TemplateModel SnapModel WaitModel WaitSpec WaitProofs2 WaitProofs4 ServeModel ServeSpec ServeProofs ServeProofs2 ServeProofs3.
Local Open Scope nat_scope.

(** Without other goroutines Execute with the locks is Execute. *)
Theorem C127_alone : forall F ord langs th n h t data, solo (s_execute F ord langs th n t data) h = execute F ord langs th n h t data.
Proof. exact (fun F ord langs th n h t data => solo_execute F ord langs th n t data h). Qed.
Print Assumptions C127_alone.
(** If at every moment every object has a rank above the objects in it, nobody waits for itself, directly or through others. *)
Theorem C127_no_circle : forall F ord A rank (path : nat -> heap * list (routine A)) T h ps, order_ok ord ->
  path 0 = (h, map fresh ps) -> Forall (worker F ord) ps -> history T path -> (forall m, m <= T -> ranked rank (path m).1) ->
  forall i, ~ tc (waits (path T).2) i i.
Proof. exact (fun F ord A rank path T h ps Hord => @workers_circle F ord Hord A rank path T h ps). Qed.
Print Assumptions C127_no_circle.
(** Unless somebody has panicked with a lock in its hands, whoever cannot go on waits, perhaps through others, for somebody who can. *)
Theorem C127_goes_on : forall F ord A rank (path : nat -> heap * list (routine A)) T h ps, order_ok ord ->
  path 0 = (h, map fresh ps) -> Forall (worker F ord) ps -> history T path -> (forall m, m <= T -> ranked rank (path m).1) ->
  forall i g, no_dead_holder (path T).2 -> (path T).2 !! i = Some g -> ~ over g -> exists j, rtc (waits (path T).2) i j /\ can_move (path T) j.
Proof. exact (fun F ord A rank path T h ps Hord => @workers_go_on F ord Hord A rank path T h ps). Qed.
Print Assumptions C127_goes_on.
(** Goroutines that execute, read, store plain values and remove: it is enough that the data are in order before. Every run comes to an
    end, and then every execution and call has come to its end and nobody holds a lock, even after a panic. *)
Theorem C127_servers : forall F ord A rank (path : nat -> heap * list (routine A)), order_ok ord ->
  (~ forall m, exists i, moves i (path m) (path (S m))) /\
  forall T h ps, path 0 = (h, map fresh ps) -> Forall (server F ord) ps -> history T path -> ranked rank h -> filled h ->
    (forall i, ~ tc (waits (path T).2) i i) /\
    ((forall g, g ∈ (path T).2 -> ~ starved g) -> (forall i, ~ can_move (path T) i) -> forall g, g ∈ (path T).2 -> over g /\ held g = []).
Proof.
  exact (fun F ord A rank path Hord => conj (no_endless path) (fun T h ps H0 Hps Hp Hr Hf =>
    conj (servers_circle F ord Hord rank path T h ps H0 Hps Hp Hr Hf) (servers_return F ord Hord rank path T h ps H0 Hps Hp Hr Hf))).
Qed.
Print Assumptions C127_servers.
(** A child that refers to its parent: four executions of templates wait for each other for ever; two of them read, two go through a list. *)
Theorem C127_parent_refuted : forall F ord, Forall (server F ord) (visits F ord) /\
  exists (path : nat -> heap * list (routine unit)) T, history T path /\ path 0 = (family ∪ lists, map fresh (visits F ord)) /\
    tc (waits (path T).2) 0 0 /\ frozen (path T).
Proof. exact (fun F ord => conj (visits_servers F ord) (pages_deadlock F ord)). Qed.
Print Assumptions C127_parent_refuted.
(** Without that reference: 1 waits for 0 and 0 for 2, and then all pages are there. *)
Example C127_case : forall F ord, Forall (server F ord) (jobs F ord) /\ ranked rank_lists (house ∪ lists) /\ filled (house ∪ lists) /\
  (exists path, history 26 path /\ path 0 = (house ∪ lists, map fresh (jobs F ord)) /\ waits (path 26).2 1 0 /\ waits (path 26).2 0 2) /\
  exists path, history 56 path /\ path 0 = (house ∪ lists, map fresh (jobs F ord)) /\
    (path 56).2 = [Routine [] false (Done (B "2")); Routine [] false (Done (B "1:1 ")); Routine [] false (Done (B "1:2 "))].
Proof. exact (fun F ord => conj (jobs_servers F ord) (jobs_case F ord)). Qed.
