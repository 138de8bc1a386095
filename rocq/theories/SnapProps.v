(** * C122: cloning data while other goroutines change them. *)
From Verif Require Import GoBase DatasetModel DatasetSpec DatasetProofs2 DatasetProofs3 ParModel MeanSpec SnapModel SnapSpec SnapProofs SnapProofs2.
Local Open Scope nat_scope.

(** Without other goroutines: the copy is what is below the original, and the clone in the heap unfolds to the same. *)
Theorem C122_alone : forall ord h l t, order_ok ord -> unfolds h l t -> exists n0, forall n, n0 <= n ->
  (exists t', alone (p_copy ord n l) h = Ok (h, t') /\ unfolds h l t') /\
  exists h' c, clone ord n h l = Ok (h', c) /\ forall t', unfolds h l t' -> unfolds h' c t'.
Proof. exact clone_alone. Qed.
Print Assumptions C122_alone.
(** What the copy shows is what Get finds. *)
Theorem C122_reads : forall h t ks v, leaf t ks v -> forall l, unfolds h l t -> dataset_at h l /\ ks <> [] /\ at_path h l ks (Some v).
Proof. exact leaf_path. Qed.
Print Assumptions C122_reads.
(** Among any goroutines: every object as it was at one moment, one after the other. *)
Theorem C122_moments : forall ord n l (path : nat -> heap * list (act tree)) T i t, order_ok ord -> course T path ->
  (path 0).2 !! i = Some (p_copy ord n l) -> (path T).2 !! i = Some (Ret t) -> exists j, j <= T /\ snap (fun m => (path m).1) 0 l j t.
Proof. exact snap_course. Qed.
Print Assumptions C122_moments.
(** If nothing below the original changes, the copy is the original. *)
Theorem C122_still : forall ord n l (path : nat -> heap * list (act tree)) T i t, order_ok ord -> course T path ->
  (path 0).2 !! i = Some (p_copy ord n l) -> (path T).2 !! i = Some (Ret t) ->
  (forall m x, m <= T -> reach (path 0).1 l x -> (path m).1 !! x = (path 0).1 !! x) -> unfolds (path 0).1 l t.
Proof. exact still_course. Qed.
Print Assumptions C122_still.
(** A thread safe dataset with nothing cloneable in it is copied as it was at one moment. *)
Theorem C122_flat : forall ord n w d (path : nat -> heap * list (act tree)) T i t, order_ok ord -> course T path ->
  (path 0).2 !! i = Some (p_copy ord n w) -> (path T).2 !! i = Some (Ret t) ->
  (forall m, m <= T -> (path m).1 !! w = Some (OTs (Some d)) /\ exists mp, (path m).1 !! d = Some (ODs mp) /\ forall k r, mp !! k <> Some (VRef r)) ->
  exists m, m <= T /\ unfolds (path m).1 w t.
Proof. exact flat_course. Qed.
Print Assumptions C122_flat.
(** Clone does not panic among goroutines that put no nil into the data. *)
Theorem C122_no_panic : forall ord n l h0 (ps0 : list (act tree)) h ps i, order_ok ord -> whole h0 -> is_Some (h0 !! l) -> Forall (mindful h0) ps0 ->
  ps0 !! i = Some (p_copy ord n l) -> rtc par_step (h0, ps0) (h, ps) -> ps !! i <> Some Fail.
Proof. exact copy_no_panic. Qed.
Print Assumptions C122_no_panic.
(** Set, Del, Push, Unshift, Shift, Pop, new objects and Clone itself are such goroutines. *)
Theorem C122_mindful : forall h,
  (forall n d k v, (forall r, v = VRef r -> is_Some (h !! r)) -> mindful h (write (fun h => dset n h d k v))) /\
  (forall n d k, mindful h (write (fun h => ddel n h d k))) /\
  (forall c d, is_Some (h !! d) -> mindful h (write (fun h => cpush h c (Some d))) /\ mindful h (write (fun h => cunshift h c (Some d)))) /\
  (forall c, mindful h (write (fun h => only_heap (cshift h c))) /\ mindful h (write (fun h => only_heap (cpop h c)))) /\
  (forall new o, sane h o -> mindful h (Act (fun h => <[new h := o]> h) (fun h => Ret (new h)))) /\
  (forall ord n l, order_ok ord -> is_Some (h !! l) -> mindful h (p_copy ord n l)).
Proof.
  exact (fun h => conj (mindful_set h) (conj (mindful_del h) (conj (fun c d Hd => conj (mindful_push h c d Hd) (mindful_unshift h c d Hd))
    (conj (fun c => conj (mindful_shift h c) (mindful_pop h c)) (conj (fun new o => mindful_new new o h) (fun ord n l => mindful_copy ord n h l)))))).
Qed.
Print Assumptions C122_mindful.
(** With more than one dataset the copy is not the data of one moment: b is set before a, the copy has the old b and the new a. *)
Theorem C122_one_moment_refuted : exists (path : nat -> heap * list (act tree)) T, course T path /\ path 0 = (two, [p_copy in_order 9 1%positive; first_b_then_a]) /\
  (path T).2 !! 0 = Some (Ret seen1) /\ leaf seen1 [B "b"; B "x"] (VInt KInt 0) /\ leaf seen1 [B "a"; B "x"] (VInt KInt 1) /\ forall m, m <= T ->
    ~ (gets (path m).1 1%positive (B "b>x") (Some (VInt KInt 0)) /\ gets (path m).1 1%positive (B "a>x") (Some (VInt KInt 1))) /\ ~ unfolds (path m).1 1%positive seen1.
Proof. exact not_one_moment. Qed.
Print Assumptions C122_one_moment_refuted.
(** A list of one person x; the other goroutine adds y and changes x to z. *)
Example C122_case : whole people /\ Forall (mindful people) start2.2 /\
  (exists h, rtc par_step start2 (h, [Ret (copied_list [person "z"]); Ret (Leaf VNil)])) /\
  (exists h, rtc par_step start2 (h, [Ret (copied_list [person "x"; person "y"]); Ret (Leaf VNil)])) /\
  unfolds people 1%positive (copied_list [person "x"]).
Proof. exact copy_case. Qed.
