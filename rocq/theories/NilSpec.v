(** * Datasets with a nil map: what to expect (C100). *)
From Verif Require Import GoBase GoStrings DatasetModel DatasetSpec NilModel.

(** The datasets of [N] have nothing in them. *)
Definition nil_maps (N : gset loc) (h : heap) : Prop := forall x, x ∈ N -> h !! x = Some (ODs ∅).
(** [l] is a dataset [x] behind the wrappers [ws]. *)
Inductive passes (h : heap) : loc -> list loc -> loc -> Prop :=
| ps_here x m : h !! x = Some (ODs m) -> passes h x [] x
| ps_wrapper l d ws x : h !! l = Some (OTs (Some d)) -> passes h d ws x -> passes h l (l :: ws) x.

(** [l] is a wrapper that wraps nothing (&XDatasetTS{}), behind further wrappers; [ws] are all of them. *)
Inductive hollow (h : heap) : loc -> list loc -> Prop :=
| ho_here l : h !! l = Some (OTs None) -> hollow h l [l]
| ho_wrapper l d ws : h !! l = Some (OTs (Some d)) -> hollow h d ws -> hollow h l (l :: ws).
(** The call number [i] stores into a nil map, and its wrappers are [ws]. *)
Definition nil_store (N : gset loc) (h : heap) (cs : list (loc * call)) (i : nat) (ws : list loc) : Prop :=
  exists l k v x, cs !! i = Some (l, CSet k v) /\ passes h l ws x /\ x ∈ N.
(** The call number [i] finds the lock of one of its wrappers taken: an earlier call stored into a nil map through that wrapper. *)
Definition waits (N : gset loc) (h : heap) (cs : list (loc * call)) (i : nat) : Prop :=
  exists l c ws x j ws' w, cs !! i = Some (l, c) /\ passes h l ws x /\ (j < i)%nat /\ nil_store N h cs j ws' /\ w ∈ ws /\ w ∈ ws'.
(** What a call does to the dataset [x] with the entries [m] when no lock is in the way. *)
Definition effect (N : gset loc) (h : heap) (x : loc) (m : gmap bytes value) (c : call) (h' : heap) (a : answer) : Prop :=
  match c with
  | CSet k v => (x ∈ N /\ h' = h /\ a = APanic) \/ (x ∉ N /\ h' = <[x := ODs (<[k := v]> m)]> h /\ a = ADone)
  | CDel k => h' = <[x := ODs (delete k m)]> h /\ a = ADone
  | CGet k => h' = h /\ a = AGot (m !! k)
  end.
