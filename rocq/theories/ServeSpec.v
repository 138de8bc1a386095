(** * C127: goroutines that execute templates on nested thread safe data. *)
From Verif Require Import GoBase LangModel DatasetModel DatasetSpec TemplateModel SnapModel WaitModel WaitSpec ServeModel.
Local Open Scope nat_scope.

Section Workers.
  Context (F : golib) (ord : heap -> gmap bytes value -> list (bytes * value)).
  (** A goroutine that executes templates and calls methods one after the other; what it does next may depend on what it got. *)
  Inductive worker {A} : prog A -> Prop :=
  | works_done a : worker (Done a)
  | works_crash : worker Crash
  | works_short : worker Short
  | works_look w k : (forall h, worker (k h)) -> worker (Look w k)
  | works_method C (m : prog C) f : method F ord C m -> (forall a, worker (f a)) -> worker (pbind m f)
  | works_execute langs th n t data f : (forall a, worker (f a)) -> worker (pbind (s_execute F ord langs th n t data) f).
  (** Reading, storing plain values, removing. *)
  Inductive harmless : forall C, prog C -> Prop :=
  | harmless_get n l key : harmless _ (w_get n l key)
  | harmless_string n l key : harmless _ (w_string F ord n l key)
  | harmless_typed C n l key (conv : heap -> value -> option C) zero : harmless _ (w_typed n l key conv zero)
  | harmless_set n l key v : (forall y, v <> VRef y) -> harmless _ (w_set n l key v)
  | harmless_del n l key : harmless _ (w_del n l key)
  | harmless_show n go l : harmless _ (w_show F ord n go l)
  | harmless_count c : harmless _ (w_count c)
  | harmless_elem c i : harmless _ (w_elem c i).
  (** A goroutine that executes templates and calls these. *)
  Inductive server {A} : prog A -> Prop :=
  | serves_done a : server (Done a)
  | serves_crash : server Crash
  | serves_short : server Short
  | serves_method C (m : prog C) f : harmless C m -> (forall a, server (f a)) -> server (pbind m f)
  | serves_execute langs th n t data f : (forall a, server (f a)) -> server (pbind (s_execute F ord langs th n t data) f).
End Workers.

(** In every thread safe dataset there is a dataset. *)
Definition dataset_at (h : heap) (l : loc) : Prop := match h !! l with Some (ODs _) | Some (OTs _) => True | _ => False end.
Definition filled (h : heap) : Prop := forall l o, h !! l = Some (OTs o) -> exists d, o = Some d /\ dataset_at h d.
(** The goroutine has stopped for want of fuel, which the program has not. *)
Definition starved {A} (g : routine A) : Prop := match code g with Short => True | _ => False end.
