(** * C126: what a Clone of a thread safe collection sees of its list. *)
From Verif Require Import GoBase DatasetModel DatasetSpec SliceModel WalkModel WalkSpec WalkProofs2.

(** The walk never leaves the array. *)
Theorem C126_no_panic : forall grow i T ev path, runs grow i T ev path -> (path T).2 <> Torn.
Proof. exact never_torn. Qed.
Print Assumptions C126_no_panic.
(** It finds as many elements as there were at the beginning, each of them in the collection at some moment of the call. *)
Theorem C126_seen : forall grow i T ev path, runs grow i T ev path -> forall b got, (path T).2 = Over got -> ev b = Begin -> b < T ->
  length got = length (shown i (path b)) /\ forall x, x ∈ got -> exists t, b <= t <= T /\ x ∈ shown i (path t).
Proof. exact walk_seen. Qed.
Print Assumptions C126_seen.
(** An element that no Pop reaches is found at its place. *)
Theorem C126_place : forall grow i T ev path, runs grow i T ev path -> forall b got j, (path T).2 = Over got -> ev b = Begin -> b < T -> j < length got ->
  (forall t, b <= t <= T -> total (pops i) ev b t <= total (pushes i) ev b t + (length got - 1 - j)) -> got !! j = shown i (path b) !! j.
Proof. exact walk_place. Qed.
Print Assumptions C126_place.
(** If only elements that were pushed meanwhile are popped, it finds the list of the beginning. *)
Theorem C126_exact : forall grow i T ev path, runs grow i T ev path -> forall b got, (path T).2 = Over got -> ev b = Begin -> b < T ->
  (forall t, b <= t <= T -> total (pops i) ev b t <= total (pushes i) ev b t) -> got = shown i (path b).
Proof. exact walk_exact. Qed.
Print Assumptions C126_exact.
(** In general it need not be the list of any moment: an element is copied twice that is at no moment twice in the collection. *)
Theorem C126_moment_refuted : exists grow ev path, runs grow 0 11 ev path /\ ev 3 = Begin /\ (path 11).2 = Over [Some 1%positive; Some 1%positive] /\
  forall t, t <= 11 -> NoDup (shown 0 (path t)).
Proof. exact twist_case. Qed.
Print Assumptions C126_moment_refuted.
(** Two elements, copied while a third is pushed and popped, the first is shifted off and nil is put in front. *)
Example C126_case : runs doubling 0 11 (events calm) (follow calm) /\ (follow calm 11).2 = Over [Some 1%positive; Some 2%positive] /\
  shown 0 (follow calm 3) = [Some 1%positive; Some 2%positive] /\ shown 0 (follow calm 11) = [None; Some 2%positive] /\
  map (fun t => total (pops 0) (events calm) 3 t) [4;5;7;9] = [0;0;1;1] /\ map (fun t => total (pushes 0) (events calm) 3 t) [4;5;7;9] = [0;1;1;1].
Proof. exact calm_case. Qed.
