(** * What goroutines that load, extend and use templates should see (C118). *)
From Verif Require Import GoBase GoStrings Regex DatasetModel LangModel DatasetSpec TemplateModel TemplateSpec RenderSpec CrashSpec CopyModel EditModel.

(** ** No panic *)
(** The data of Execute: datasets whose collections have no nil element.  Maps are listed in any order. *)
Definition sound_calls (h : heap) (cs : list call) : Prop :=
  wf h /\ (forall i data, Run i data ∈ cs -> exists d, data = Some d /\ dataset_at h d /\ no_holes h d) /\
  (forall i tord, Dup i tord ∈ cs -> any_order tord).

(** ** Templates in use *)
(** [V] has with a template its sub templates and its father, and nothing else has one of [V] as such. *)
Definition group (th : theap) (V : loc -> Prop) : Prop :=
  (forall x, V x -> is_Some (th !! x)) /\
  (forall x X n y, th !! x = Some X -> subs_of X !! n = Some y -> (V x <-> V y)) /\
  (forall x X f, th !! x = Some X -> t_father X = Some f -> (V x <-> V f)).
(** A template that is not a sub template. *)
Definition top (th : theap) (t : loc) : Prop := forall x X n, th !! x = Some X -> subs_of X !! n <> Some t.
(** The text has no boxes. *)
Definition boxless (data : bytes) : Prop := forall p, p ∈ first_pass data -> p_type p <> MStart /\ p_type p <> MEnd.
(** What goroutines do beside executions: calls on templates outside of [V], and LoadString of a text
    without boxes into a top template of [V]. *)
Inductive role :=
| Outside (held : list loc) (h : heap) (cs : list call)
| Reload (t : loc) (data : bytes)
| Reader (h : heap) (t : loc) (data : option loc).
Definition fair (th : theap) (V : loc -> Prop) (r : role) : Prop :=
  match r with
  | Outside held _ cs => (forall t, t ∈ held -> ~ V t) /\ (forall i tord, Dup i tord ∈ cs -> any_order tord)
  | Reload t data => V t /\ top th t /\ boxless data
  | Reader _ t _ => V t
  end.
Definition t_role F ord langs (n : nat) (r : role) : tact (list reply) :=
  match r with
  | Outside held h cs => t_calls F ord langs n held h cs
  | Reload t data => ok <~ t_load t data; TRet [Loaded ok]
  | Reader h t data => '(_, out) <~ t_execute F ord langs n h t data; TRet [Text out]
  end.
(** The templates as they were, or with one of the texts that are loaded into [t]. *)
Definition version (th : theap) (roles : list role) (t : loc) (th' : theap) : Prop :=
  th' = th \/ exists data, Reload t data ∈ roles /\ th' = (compile th t data).1.
Definition text_reply (r : outcome (heap * bytes)) : outcome (list reply) := match r with Ok (_, b) => Ok [Text b] | Panic => Panic | NoFuel => NoFuel end.
(** How a goroutine has ended, if it has. *)
Definition ended {A} (p : tact A) : option (outcome A) := match p with TRet a => Some (Ok a) | TFail => Some Panic | TOut => Some NoFuel | TAct _ _ => None end.
