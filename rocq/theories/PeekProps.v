(** * C125: a Get through nested thread safe data shows one moment, unless a collection is on the way. *)
From Verif Require Import GoBase GoStrings DatasetModel DatasetSpec WaitModel WaitSpec WaitProofs4 PeekSpec PeekProofs2 PeekProofs3.
Local Open Scope nat_scope.

(** Whoever changes what is inside a thread safe dataset holds its write lock, and nobody else holds it in any way. *)
Theorem C125_exclusive : forall F ord W A (path : nat -> heap * list (routine A)) T h ps i g w k l d,
  path 0 = (h, map fresh ps) -> Forall (user F ord W) ps -> history T path -> (forall m, m <= T -> fits W (path m).1) ->
  (path T).2 !! i = Some g -> code g = Look w k -> W l = Some d -> w (path T).1 !! d <> (path T).1 !! d ->
  (true, l) ∈ held g /\ forall j g' b, j <> i -> (path T).2 !! j = Some g' -> (b, l) ∉ held g'.
Proof. exact (fun F ord W A => @change_exclusive F ord W A). Qed.
Print Assumptions C125_exclusive.
(** Get with a path through thread safe datasets returns what is there at one moment during the call. *)
Theorem C125_get : forall F ord W (path : nat -> heap * list (routine (option value))) T h ps i n l d key r g,
  path 0 = (h, map fresh ps) -> Forall (user F ord W) ps -> history T path ->
  (forall m, m <= T -> fits W (path m).1 /\ wrappers_under (split_on gt key) (path m).1) ->
  ps !! i = Some (w_get n l key) -> h !! l = Some (OTs (Some d)) -> (path T).2 !! i = Some g -> code g = Done r ->
  exists m, m < T /\ moves i (path m) (path (S m)) /\ dget n (path m).1 l key = Ok r.
Proof. exact get_one_moment. Qed.
Print Assumptions C125_get.
(** So do the typed getters. *)
Theorem C125_typed : forall F ord W A (path : nat -> heap * list (routine (A * bool))) T h ps i n l d key (conv : value -> option A) zero r g,
  path 0 = (h, map fresh ps) -> Forall (user F ord W) ps -> history T path ->
  (forall m, m <= T -> fits W (path m).1 /\ wrappers_under (split_on gt key) (path m).1) ->
  ps !! i = Some (w_typed n l key (fun _ => conv) zero) -> h !! l = Some (OTs (Some d)) -> (path T).2 !! i = Some g -> code g = Done r ->
  exists m, m < T /\ moves i (path m) (path (S m)) /\ typed n (path m).1 l key conv zero = Ok r.
Proof. exact (fun F ord W A => @typed_one_moment A F ord W). Qed.
Print Assumptions C125_typed.
(** With a collection on the way it need not: the path shows 1 and then nothing, Get returns 2. *)
Theorem C125_collection_refuted : exists (path : nat -> heap * list (routine (option value))) T g, history T path /\ path 0 = (shop, map fresh customers) /\
  (forall m, m <= T -> fits inside_of (path m).1) /\ (path T).2 !! 0 = Some g /\ code g = Done (Some (num 2)) /\
  forall m, m <= T -> dget 9 (path m).1 owner (B "shelf>0>x") = Ok (Some (num 1)) \/ dget 9 (path m).1 owner (B "shelf>0>x") = Ok None.
Proof. exact collection_case. Qed.
Print Assumptions C125_collection_refuted.
(** A mother with a daughter; somebody sets the daughter's x from 2 to 5 and removes her: 5 or 2 is read. *)
Example C125_case : forall F ord, Forall (user F ord inside_of) visitors /\ Forall (user F ord inside_of) customers /\
  visit early 5 /\ visit late 2 /\ split_on gt (B "child>x") = [B "child"; B "x"].
Proof. exact (fun F ord => conj (visitors_users F ord) (conj (customers_users F ord) visits)). Qed.
