(** * Collections and the recency list as plain lists (C96). *)
From Verif Require Import GoBase DatasetModel DatasetSpec SliceModel.

(** A program over collections, each of them a list of its own; [copies]: an assignment copies the list. *)
Inductive lists_step (copies : Prop) : gmap nat (list (option loc)) -> mop -> gmap nat (list (option loc)) -> option deque_answer -> Prop :=
  | ls_new ls j : lists_step copies ls (MNew j) (<[j := []]> ls) None
  | ls_do ls i xs o ys a : ls !! i = Some xs -> deque_step xs o ys a -> lists_step copies ls (MDo i o) (<[i := ys]> ls) (Some a)
  | ls_clone ls i j xs ds : ls !! i = Some xs -> length ds = length xs -> lists_step copies ls (MClone i j ds) (<[j := ds]> ls) None
  | ls_copy ls i j xs : copies -> ls !! i = Some xs -> lists_step copies ls (MCopy i j) (<[j := xs]> ls) None.
Inductive lists_run (copies : Prop) : gmap nat (list (option loc)) -> list mop -> gmap nat (list (option loc)) -> list (option deque_answer) -> Prop :=
  | lr_nil ls : lists_run copies ls [] ls []
  | lr_cons ls o ls1 a os ls2 rs : lists_step copies ls o ls1 a -> lists_run copies ls1 os ls2 rs -> lists_run copies ls (o :: os) ls2 (a :: rs).
Definition no_copy (o : mop) : Prop := match o with MCopy _ _ => False | _ => True end.

Inductive pile_step : list bytes -> pop -> list bytes -> list bytes -> Prop :=
  | ps_append xs k : pile_step xs (PAppend k) (xs ++ [k]) []
  | ps_remove xs k ys : k ∉ xs -> pile_step (xs ++ k :: ys) (PRemove k) (xs ++ ys) []
  | ps_absent xs k : k ∉ xs -> pile_step xs (PRemove k) xs []
  | ps_evict xs ys : pile_step (xs ++ ys) (PEvict (length xs)) ys xs.
Inductive pile_run : list bytes -> list pop -> list bytes -> list (list bytes) -> Prop :=
  | pr_nil xs : pile_run xs [] xs []
  | pr_cons xs o ys a os zs rs : pile_step xs o ys a -> pile_run ys os zs rs -> pile_run xs (o :: os) zs (a :: rs).
