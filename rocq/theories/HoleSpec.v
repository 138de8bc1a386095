(** * Rendering with free fields (C102): a text with holes. *)
From Verif Require Import GoBase DatasetModel DatasetSpec TemplateModel TemplateSpec RenderSpec.

(** Templates that can be called from [t], in any number of steps. *)
Definition reaches (th : theap) : loc -> loc -> Prop := rtc (fun x y => exists n, visible th x n (Some y)).
(** The keys under which a path can end: the path itself and what follows any ">". *)
Definition tail (path k : bytes) : Prop := k = path \/ exists p, path = p ++ ">"%char :: k.
(** [k] is an end of the path of a {{variable}} in [t] or a template it can reach. *)
Definition printed (th : theap) (t : loc) (k : bytes) : Prop :=
  exists x T l s, reaches th t x /\ th !! x = Some T /\ t_root T = Some (map stored l) /\ TVar s ∈ l /\ tail s k.
(** What a key stands for, wherever it occurs in the data:
    [Free]: a value that is no object, of any type and content; [Plain]: a value that is no object;
    [Table]: such a value or a dataset; [Any]: anything. *)
Inductive role := Free | Plain | Table | Any.
Section Roles.
  Context (kind : bytes -> role).
  Definition fits (h : heap) (k : bytes) (v v' : value) : Prop :=
    match kind k with
    | Free => (forall l, v <> VRef l) /\ forall l, v' <> VRef l
    | Plain => v' = v /\ forall l, v <> VRef l
    | Table => v' = v /\ forall l, v = VRef l -> dataset_at h l
    | Any => v' = v
    end.
  (** [h'] is [h] with other values in the free fields (the roles are respected). *)
  Inductive same_but (h : heap) : option obj -> option obj -> Prop :=
  | sb_ds m m' : (forall k, option_Forall2 (fits h k) (m !! k) (m' !! k)) -> same_but h (Some (ODs m)) (Some (ODs m'))
  | sb_other o : (forall m, o <> Some (ODs m)) -> same_but h o o.
  Definition variant (h h' : heap) : Prop := forall l, same_but h (h !! l) (h' !! l).

  (** Every end of the path has one of the roles, and is no index of a collection. *)
  Definition ends_in (P : role -> Prop) (path : bytes) : Prop := forall k, tail path k -> P (kind k) /\ forall i, ~ denotes k (Z.of_nat i).
  (** The elements that print only values that are no objects, and decide nothing on free values. *)
  Inductive careful : token -> Prop :=
  | ca_text s : careful (TText s)
  | ca_comment s : careful (TComment s)
  | ca_lang s : careful (TLang s)
  | ca_var s : ends_in (fun r => r = Free \/ r = Plain) s -> careful (TVar s)
  | ca_dump s : s <> B "dump" -> s <> B "list" -> careful (TDump s)
  | ca_ref s : (forall a field prefix, separated ":"%char s a [field; prefix] -> ends_in (fun r => r = Plain) field) -> careful (TRef s)
  | ca_range s : careful (TRange s)
  | ca_cond s : (forall d b, data_template s d b -> ends_in (fun r => r = Plain \/ r = Table) d) -> careful (TCond s).
  (** [t] and every template it can reach have only such elements. *)
  Definition careful_template (th : theap) (t : loc) : Prop :=
    forall x T l, reaches th t x -> th !! x = Some T -> t_root T = Some (map stored l) -> Forall careful l.
  (** The counters of the loops and the language are not free. *)
  Definition proper : Prop := kind (B ".counter") = Plain /\ kind (B "#") <> Free.
End Roles.

(** Literal text, or the hole for a field of a dataset. *)
Inductive piece := Lit (s : bytes) | Hole (x : loc) (k : bytes).
(** The text of a field: nothing if it is nil. *)
Definition field (F : golib) (h : heap) (x : loc) (k : bytes) : bytes :=
  match h !! x with
  | Some (ODs m) => match m !! k with Some VNil | None => [] | Some v => plain_text F v end
  | _ => []
  end.
Definition fill (F : golib) (h : heap) (ps : list piece) : bytes :=
  concat (map (fun p => match p with Lit s => s | Hole x k => field F h x k end) ps).
