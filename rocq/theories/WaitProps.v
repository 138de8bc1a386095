(** * C124: nested thread safe data and goroutines that wait for each other. *)
From Verif Require Import GoBase DatasetModel DatasetSpec DatasetProofs3 ParModel SnapModel WaitModel WaitSpec WaitProofs2 WaitProofs3 WaitProofs4.
Local Open Scope nat_scope.

(** Without other goroutines the methods with the locks are the methods of DatasetModel.v (and Clone is [p_copy], C122_alone). *)
Theorem C124_alone : forall F ord n h,
  (forall l key, solo (w_get n l key) h = (r <-! dget n h l key; Ok (h, r))) /\
  (forall l key, solo (w_string F ord n l key) h = (r <-! get_string F ord n h l key; Ok (h, r))) /\
  (forall C l key conv (zero : C), solo (w_typed n l key conv zero) h = (r <-! typed n h l key (conv h) zero; Ok (h, r))) /\
  (forall l key v, solo (w_set n l key v) h = (h1 <-! dset n h l key v; Ok (h1, tt))) /\
  (forall l key, solo (w_del n l key) h = (h1 <-! ddel n h l key; Ok (h1, tt))) /\
  (forall l, solo (w_clone ord n l) h = alone (p_copy ord n l) h) /\
  (forall go l, solo (w_show F ord n go l) h = (t <-! show F ord n h go l; Ok (h, t))) /\
  (forall c key, solo (w_data n c key) h = (r <-! cget_data n h c key; Ok (h, r))) /\
  (forall c i, solo (w_elem c i) h = (r <-! cget h c i; Ok (h, r)) /\ solo (w_count c) h = (r <-! ccount h c; Ok (h, r))) /\
  (forall c d, solo (w_unshift c d) h = (h1 <-! cunshift h c d; Ok (h1, tt)) /\ solo (w_push c d) h = (h1 <-! cpush h c d; Ok (h1, tt))) /\
  (forall c, solo (w_shift c) h = cshift h c /\ solo (w_pop c) h = cpop h c).
Proof.
  exact (fun F ord n h => conj (fun l key => solo_get n l key h) (conj (fun l key => solo_string F ord n l key h)
    (conj (fun C l key conv zero => solo_typed n l key conv zero h) (conj (fun l key v => solo_alter _ n l h) (conj (fun l key => solo_alter _ n l h)
    (conj (fun l => solo_clone ord n l h) (conj (fun go l => solo_show F ord n go l h) (conj (fun c key => solo_data n c key h)
    (conj (fun c i => conj (solo_inspect c _ h) (solo_inspect c _ h)) (conj (fun c d => conj (solo_modify c _ h) (solo_modify c _ h))
    (fun c => conj (solo_modify c _ h) (solo_modify c _ h)))))))))))).
Qed.
Print Assumptions C124_alone.
(** If at every moment every object has a rank above the objects in it, nobody waits for itself, directly or through others. *)
Theorem C124_no_circle : forall F ord A rank (path : nat -> heap * list (routine A)) T h ps, order_ok ord ->
  path 0 = (h, map fresh ps) -> Forall (caller F ord) ps -> history T path -> (forall m, m <= T -> ranked rank (path m).1) ->
  forall i, ~ tc (waits (path T).2) i i.
Proof. exact (fun F ord A rank path T h ps Hord => @history_circle F ord Hord A rank path T h ps). Qed.
Print Assumptions C124_no_circle.
(** Unless somebody has panicked with a lock in its hands, whoever cannot go on waits, perhaps through others, for somebody who can. *)
Theorem C124_goes_on : forall F ord A rank (path : nat -> heap * list (routine A)) T h ps, order_ok ord ->
  path 0 = (h, map fresh ps) -> Forall (caller F ord) ps -> history T path -> (forall m, m <= T -> ranked rank (path m).1) ->
  forall i g, no_dead_holder (path T).2 -> (path T).2 !! i = Some g -> ~ over g -> exists j, rtc (waits (path T).2) i j /\ can_move (path T) j.
Proof. exact (fun F ord A rank path T h ps Hord => @history_goes_on F ord Hord A rank path T h ps). Qed.
Print Assumptions C124_goes_on.
(** So every run comes to its end, and then every call has returned. *)
Theorem C124_returns : forall F ord A rank (path : nat -> heap * list (routine A)), order_ok ord ->
  (~ forall m, exists i, moves i (path m) (path (S m))) /\
  forall T h ps, path 0 = (h, map fresh ps) -> Forall (caller F ord) ps -> history T path -> (forall m, m <= T -> ranked rank (path m).1) ->
    no_dead_holder (path T).2 -> (forall i, ~ can_move (path T) i) -> Forall over (path T).2.
Proof. exact (fun F ord A rank path Hord => conj (no_endless path) (fun T h ps => history_returns F ord Hord rank path T h ps)). Qed.
Print Assumptions C124_returns.
(** A child that refers to its parent: two Gets and two Sets wait for each other for ever, though nobody wants a lock it holds. *)
Theorem C124_parent_refuted : exists (path : nat -> heap * list (routine unit)) T, history T path /\ path 0 = (family, map fresh relatives) /\
  tc (waits (path T).2) 0 0 /\ frozen (path T).
Proof. exact parent_deadlock. Qed.
Print Assumptions C124_parent_refuted.
(** It is not enough that the data never contain themselves: a thing is taken from its owner's list and its owner is noted in it while somebody reads it through the list. *)
Theorem C124_acyclic_refuted : exists (path : nat -> heap * list (routine unit)) T, history T path /\ path 0 = (shop, map fresh people) /\
  (forall m, m <= T -> forall x, acyclic (path m).1 x) /\ no_dead_holder (path T).2 /\
  tc (waits (path T).2) 0 0 /\ (forall i, ~ can_move (path T) i) /\
  exists g0 g1 gs, (path T).2 = g0 :: g1 :: gs /\ Forall (fun g => ~ over g) (g0 :: gs).
Proof. exact shop_deadlock. Qed.
Print Assumptions C124_acyclic_refuted.
(** A mother with a daughter: 0 waits for 3, 3 for 1, 2 for 0, and 1 can go on; in the end all have returned. *)
Example C124_case : forall F, Forall (caller F (fun _ m => map_to_list m)) guests /\ Forall (caller F (fun _ m => map_to_list m)) relatives /\ Forall (caller F (fun _ m => map_to_list m)) people /\
  (exists (path : nat -> heap * list (routine unit)), history 10 path /\ path 0 = (house, map fresh guests) /\ (forall m, m <= 10 -> ranked rank_house (path m).1) /\
     waits (path 10).2 0 3 /\ waits (path 10).2 3 1 /\ waits (path 10).2 2 0 /\ forall i, can_move (path 10) i -> i = 1) /\
  (exists (path : nat -> heap * list (routine unit)), history 24 path /\ path 0 = (house, map fresh guests) /\ (forall m, m <= 24 -> ranked rank_house (path m).1) /\
     Forall over (path 24).2).
Proof. exact (fun F => conj (guests_callers F) (conj (relatives_callers F _) (conj (people_callers F _) house_case))). Qed.
