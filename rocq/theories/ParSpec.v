(** * Executions at the same time (C112): what they share and what they look at. *)
From Verif Require Import GoBase DatasetModel DatasetSpec DatasetProofs2 TemplateModel TemplateSpec RenderSpec HoleSpec LangModel ParModel.
Local Open Scope Z_scope.

(** One execution: a template and its data ([None]: nil). *)
Notation job := (loc * option loc)%type.
(** All of them have begun. *)
Definition started F ord langs (th : theap) (n : nat) (jobs : list job) : list (act bytes) :=
  map (fun j => p_execute F ord langs th n j.1 j.2) jobs.
(** The text, or the panic, of an execution that is alone. *)
Definition said (r : outcome (heap * bytes)) : outcome bytes := p <-! r; Ok p.2.

(** The objects that can be reached from the data. *)
Definition region (h : heap) (data : option loc) (x : loc) : Prop := exists d, data = Some d /\ reach h d x.
(** The datasets that are elements of the collections among them. *)
Definition member (h : heap) (data : option loc) (x : loc) : Prop :=
  exists c xs e m, region h data c /\ collection_at h c xs /\ Some e ∈ xs /\ inside h e x m.
(** [h'] is [h] but for the counter of [x]. *)
Definition ticked (h h' : heap) (x : loc) : Prop :=
  h' !! x = h !! x \/ exists m z, h !! x = Some (ODs m) /\ h' !! x = Some (ODs (<[B ".counter" := VInt KInt z]> m)).

(** The path does not go through a counter. *)
Definition no_counter (key : bytes) : Prop := forall w ws, separated ">"%char key w ws -> B ".counter" ∉ w :: ws.
(** The elements that do not look at counters: values printed are no objects, values tested are no collections. *)
Inductive unaware (h : heap) (data : option loc) : token -> Prop :=
| ua_text s : unaware h data (TText s)
| ua_comment s : unaware h data (TComment s)
| ua_lang s : unaware h data (TLang s)
| ua_dump s : s <> B "dump" -> s <> B "list" -> unaware h data (TDump s)
| ua_var s : no_counter s -> (forall d l, region h data d -> ~ answers h d s (Some (VRef l))) -> unaware h data (TVar s)
| ua_ref s : (forall a field, separated ":"%char s a [field] -> no_counter field) ->
    (forall a field prefix, separated ":"%char s a [field; prefix] ->
      no_counter field /\ forall d l, region h data d -> ~ answers h d field (Some (VRef l))) -> unaware h data (TRef s)
| ua_range s : (forall d b, data_template s d b -> no_counter d) -> unaware h data (TRange s)
| ua_cond s : (forall d b, data_template s d b ->
      no_counter d /\ forall x c xs, region h data x -> answers h x d (Some (VRef c)) -> ~ collection_at h c xs) -> unaware h data (TCond s).
(** The template and those it can reach have only such elements, and no counter in the data is an object. *)
Definition quiet (th : theap) (h : heap) (j : job) : Prop :=
  (forall x T l, reaches th j.1 x -> th !! x = Some T -> t_root T = Some (map stored l) -> Forall (unaware h j.2) l) /\
  forall x m l, region h j.2 x -> h !! x = Some (ODs m) -> m !! B ".counter" <> Some (VRef l).
(** The other execution has no loop, or what it counts is not in the data of this one. *)
Definition apart (th : theap) (h : heap) (j other : job) : Prop :=
  loop_free th other.1 \/ forall x, member h other.2 x -> ~ region h j.2 x.
