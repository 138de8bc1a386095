(** * C126: what a Clone of a thread safe collection sees of its list. *)
From Verif Require Import GoBase DatasetModel DatasetSpec SliceModel SliceSpec WalkModel.

(** The list in a collection at a moment. *)
Definition shown (i : nat) (st : moment) : list (option loc) := default [] (view st.1.1 <$> st.1.2 !! i).
(** A run from the start of the program; nobody copies a collection by assignment (C96). *)
Definition runs (grow : nat -> nat -> nat) (i : nat) (T : nat) (ev : nat -> event) (path : nat -> moment) : Prop :=
  path 0 = (∅, ∅, Idle) /\ forall t, t < T -> walk grow i (ev t) (path t) = Some (path (S t)) /\ match ev t with Other o => no_copy o | _ => True end.
(** Pops and Pushes of the collection between two moments. *)
Definition pops (i : nat) (e : event) : nat := match e with Other (MDo j DPop) => if decide (j = i) then 1 else 0 | _ => 0 end.
Definition pushes (i : nat) (e : event) : nat := match e with Other (MDo j (DPush _)) => if decide (j = i) then 1 else 0 | _ => 0 end.
Definition total (f : event -> nat) (ev : nat -> event) (b t : nat) : nat := sum_list (map (fun k => f (ev k)) (seq b (t - b))).
