(** * C124: what it means that goroutines wait for each other. *)
From Verif Require Import GoBase DatasetModel DatasetSpec SnapModel WaitModel.
Local Open Scope nat_scope.

(** Every object has a rank above the ranks of the objects in it. *)
Definition ranked (rank : loc -> nat) (h : heap) : Prop := forall x y, child h x y -> rank y < rank x.

(** The methods. *)
Inductive method (F : golib) (ord : heap -> gmap bytes value -> list (bytes * value)) : forall C, prog C -> Prop :=
| is_get n l key : method F ord _ (w_get n l key)
| is_string n l key : method F ord _ (w_string F ord n l key)
| is_typed C n l key (conv : heap -> value -> option C) zero : method F ord _ (w_typed n l key conv zero)
| is_set n l key v : method F ord _ (w_set n l key v)
| is_del n l key : method F ord _ (w_del n l key)
| is_clone n l : method F ord _ (w_clone ord n l)
| is_show n go l : method F ord _ (w_show F ord n go l)
| is_data n c key : method F ord _ (w_data n c key)
| is_count c : method F ord _ (w_count c)
| is_elem c i : method F ord _ (w_elem c i)
| is_unshift c d : method F ord _ (w_unshift c d)
| is_push c d : method F ord _ (w_push c d)
| is_shift c : method F ord _ (w_shift c)
| is_pop c : method F ord _ (w_pop c).
(** A goroutine that calls them one after the other; what it calls next may depend on what it got. In between it may do anything without locks. *)
Inductive caller {A} (F : golib) (ord : heap -> gmap bytes value -> list (bytes * value)) : prog A -> Prop :=
| calls_done a : caller F ord (Done a)
| calls_crash : caller F ord Crash
| calls_short : caller F ord Short
| calls_look w k : (forall h, caller F ord (k h)) -> caller F ord (Look w k)
| calls_method C (m : prog C) f : method F ord C m -> (forall a, caller F ord (f a)) -> caller F ord (pbind m f).

(** The goroutine has come to its end. *)
Definition over {A} (g : routine A) : Prop := match code g with Done _ | Crash | Short => True | _ => False end.
(** [i] wants a lock which [j] holds, or for which [j] has asked before. *)
Inductive waits {A} (gs : list (routine A)) : nat -> nat -> Prop :=
| waits_holder i j g g' w l k w' : gs !! i = Some g -> gs !! j = Some g' -> code g = Take w l k -> (w', l) ∈ held g' ->
    w = true \/ w' = true -> waits gs i j
| waits_asked i j g g' l k k' : gs !! i = Some g -> gs !! j = Some g' -> code g = Take false l k -> code g' = Take true l k' -> asked g' = true ->
    waits gs i j.
Definition can_move {A} (s : heap * list (routine A)) (i : nat) : Prop := exists s', moves i s s'.
(** Nobody has panicked (or run out of fuel) with a lock in its hands (C38). *)
Definition no_dead_holder {A} (gs : list (routine A)) : Prop := forall g, g ∈ gs -> over g -> held g = [].
(** States one after the other. *)
Definition history {A} (T : nat) (path : nat -> heap * list (routine A)) : Prop :=
  forall m, m < T -> exists i, moves i (path m) (path (S m)).
