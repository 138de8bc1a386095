(** * What goroutines that clone and execute templates should see (C117). *)
From Verif Require Import GoBase GoStrings DatasetModel LangModel DatasetSpec TemplateModel TemplateSpec RenderSpec CopyModel.

(** The templates that a script holds at the end, when a clone is as good as the template it was made from ... *)
Fixpoint models (held : list loc) (cs : list command) : list loc :=
  match cs with
  | [] => held
  | Copy i _ :: cs' => models (held ++ match held !! i with Some t => [t] | None => [] end) cs'
  | Show _ _ :: cs' => models held cs'
  end.
(** ... and its texts: those of Execute, one after the other, with the templates as they were at the beginning. *)
Fixpoint in_turn F ord langs (th : theap) (n : nat) (held : list loc) (h : heap) (cs : list command) : outcome (list bytes) :=
  match cs with
  | [] => Ok []
  | Copy i _ :: cs' => match held !! i with Some t => in_turn F ord langs th n (held ++ [t]) h cs' | None => Panic end
  | Show i data :: cs' =>
      match held !! i with
      | Some t => '(h1, out) <-! execute F ord langs th n h t data; outs <-! in_turn F ord langs th n held h1 cs'; Ok (out :: outs)
      | None => Panic
      end
  end.
(** The boxes in [t] are nested less than [n] deep. *)
Fixpoint fits (th : theap) (n : nat) (t : loc) : Prop :=
  match n with
  | O => False
  | S n' => exists T, th !! t = Some T /\ forall k x, subs_of T !! k = Some x -> fits th n' x
  end.
(** A script uses templates of [th] that are not nested too deep, and maps are listed in any order. *)
Definition allowed (th : theap) (n : nat) (j : job) : Prop :=
  match j with
  | Script held h cs => (forall t, t ∈ held -> fits th n t) /\ (forall i tord, Copy i tord ∈ cs -> any_order tord)
  | Lookup t name => is_Some (th !! t)
  end.
(** From [t] on, the boxes that a template calls are its own, not those of its father. *)
Definition self_contained (th : theap) (t : loc) : Prop :=
  exists S : loc -> Prop, S t /\ forall x X l k n y, S x -> th !! x = Some X -> t_root X = Some (map stored l) -> k ∈ l -> may_call k n ->
    visible th x n (Some y) -> subs_of X !! n = Some y /\ S y.
(** [r] is nothing, or what [t] or one of the templates that hold it has under the name. *)
Inductive hears (th : theap) (name : bytes) : loc -> option loc -> Prop :=
| hr_none t : hears th name t None
| hr_here t T x : th !! t = Some T -> subs_of T !! name = Some x -> hears th name t (Some x)
| hr_up t T f r : th !! t = Some T -> t_father T = Some f -> hears th name f r -> hears th name t r.
(** [y] among the templates [th'] executes as [x] among [th]. *)
Definition as_good F ord langs (th' th : theap) (y x : loc) : Prop :=
  forall n h data, execute F ord langs th' n h y data = execute F ord langs th n h x data.
