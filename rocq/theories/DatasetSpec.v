(** * Specification of the datasets, independent of the functions of DatasetModel.v (only its
    types of values, objects and heaps are used). *)
From Coq Require Import SpecFloat.
From Verif Require Import GoBase DatasetModel.
Local Open Scope Z_scope.

(** ** Decimal numbers as strconv.Atoi accepts them *)
Definition number (ds : list Z) : Z := fold_left (fun a d => 10 * a + d) ds 0.
Definition digits (ds : list Z) (s : bytes) : Prop :=
  ds <> [] /\ Forall2 (fun d c => 0 <= d <= 9 /\ Z.of_N (N_of_ascii c) = 48 + d) ds s.
Inductive denotes : bytes -> Z -> Prop :=
| den_plain ds s : digits ds s -> number ds <= 2 ^ 63 - 1 -> denotes s (number ds)
| den_plus ds s : digits ds s -> number ds <= 2 ^ 63 - 1 -> denotes ("+"%char :: s) (number ds)
| den_minus ds s : digits ds s -> number ds <= 2 ^ 63 -> denotes ("-"%char :: s) (- number ds).

(** ** Kinds of objects *)
Definition dataset_at (h : heap) (d : loc) : Prop :=
  (exists m, h !! d = Some (ODs m)) \/ exists w, h !! d = Some (OTs w).
Definition collection_at (h : heap) (c : loc) (xs : list (option loc)) : Prop :=
  h !! c = Some (OColl xs) \/ h !! c = Some (OCollTS xs).
(** Neither a dataset nor a collection. *)
Definition plain (h : heap) (v : value) : Prop :=
  (forall d, v = VRef d -> ~ dataset_at h d) /\ (forall c xs, v = VRef c -> ~ collection_at h c xs).
(** [l] is an XDataset, possibly inside wrappers. *)
Inductive chain (h : heap) : loc -> Prop :=
| chain_ds l m : h !! l = Some (ODs m) -> chain h l
| chain_ts l d : h !! l = Some (OTs (Some d)) -> chain h d -> chain h l.
(** Well formed heaps: no wrapper around nil or around itself, elements of collections are
    datasets (or nil). *)
Definition wf (h : heap) : Prop :=
  (forall l w, h !! l = Some (OTs w) -> chain h l) /\
  (forall c xs d, collection_at h c xs -> Some d ∈ xs -> dataset_at h d).

(** ** Meaning of a path, given by its segments; [None]: not found *)
Inductive at_path (h : heap) : loc -> list bytes -> option value -> Prop :=
| ap_wrap l d p r : h !! l = Some (OTs (Some d)) -> at_path h d p r -> at_path h l p r
| ap_last l m k : h !! l = Some (ODs m) -> at_path h l [k] (m !! k)
| ap_missing l m k p : h !! l = Some (ODs m) -> m !! k = None -> p <> [] -> at_path h l (k :: p) None
| ap_dataset l m k d p r : h !! l = Some (ODs m) -> m !! k = Some (VRef d) -> dataset_at h d -> p <> [] ->
    at_path h d p r -> at_path h l (k :: p) r
| ap_no_index l m k c xs s p : h !! l = Some (ODs m) -> m !! k = Some (VRef c) -> collection_at h c xs ->
    (forall i d, denotes s (Z.of_nat i) -> xs !! i <> Some (Some d)) -> at_path h l (k :: s :: p) None
| ap_element l m k c xs s i d : h !! l = Some (ODs m) -> m !! k = Some (VRef c) -> collection_at h c xs ->
    denotes s (Z.of_nat i) -> xs !! i = Some (Some d) -> at_path h l [k; s] (Some (VRef d))
| ap_in_element l m k c xs s i d p r : h !! l = Some (ODs m) -> m !! k = Some (VRef c) -> collection_at h c xs ->
    denotes s (Z.of_nat i) -> xs !! i = Some (Some d) -> p <> [] -> at_path h d p r -> at_path h l (k :: s :: p) r
| ap_literal l m k p v : h !! l = Some (ODs m) -> m !! k = Some v -> plain h v -> p <> [] ->
    at_path h l (k :: p) (m !! (k ++ concat (map (cons ">"%char) p))).

(** ** Numeric readings *)
(** Values an int kind can hold. *)
Definition int_range (k : ikind) : Z * Z :=
  match k with
  | KInt | KInt64 => (- 2 ^ 63, 2 ^ 63 - 1)
  | KInt8 => (- 2 ^ 7, 2 ^ 7 - 1)
  | KInt16 => (- 2 ^ 15, 2 ^ 15 - 1)
  | KInt32 => (- 2 ^ 31, 2 ^ 31 - 1)
  | KUint | KUint64 => (0, 2 ^ 64 - 1)
  | KUint8 => (0, 2 ^ 8 - 1)
  | KUint16 => (0, 2 ^ 16 - 1)
  | KUint32 => (0, 2 ^ 32 - 1)
  end.
Definition holds (k : ikind) (z : Z) : Prop := (int_range k).1 <= z <= (int_range k).2.
(** [a * 2^e] compared with [b * 2^f]: scaled to integers. *)
Definition scale (a e b f : Z) : Z * Z := (a * 2 ^ (e - Z.min e f), b * 2 ^ (f - Z.min e f)).
Definition dyadic_eq (a e b f : Z) : Prop := (scale a e b f).1 = (scale a e b f).2.
Definition dyadic_le (a e b f : Z) : Prop := (scale a e b f).1 <= (scale a e b f).2.
Definition signed (s : bool) (m : positive) : Z := if s then Zneg m else Zpos m.
(** The float is the number [a * 2^e]. *)
Definition float_is (f : spec_float) (a e : Z) : Prop :=
  match f with
  | S754_zero _ => a = 0
  | S754_finite s m e' => dyadic_eq (signed s m) e' a e
  | _ => False
  end.
(** [z] is [a * 2^e] truncated towards zero. *)
Definition truncated (a e z : Z) : Prop :=
  dyadic_le (Z.abs z) 0 (Z.abs a) e /\ ~ dyadic_le (Z.abs z + 1) 0 (Z.abs a) e /\ 0 <= z * a.

(** ** Reachability and copies *)
Inductive child (h : heap) : loc -> loc -> Prop :=
| child_ds l m k d : h !! l = Some (ODs m) -> m !! k = Some (VRef d) -> child h l d
| child_ts l d : h !! l = Some (OTs (Some d)) -> child h l d
| child_coll l xs d : collection_at h l xs -> Some d ∈ xs -> child h l d.
Definition reach (h : heap) : loc -> loc -> Prop := rtc (child h).
(** No infinite descent from [l]. *)
Definition acyclic (h : heap) (l : loc) : Prop := Acc (fun y x => child h x y) l.
(** Every object reachable from [l] exists, no wrapper or element is nil. *)
Definition complete (h : heap) (l : loc) : Prop :=
  forall x, reach h l x -> (exists o, h !! x = Some o) /\ h !! x <> Some (OTs None) /\
    (forall xs, collection_at h x xs -> None ∉ xs).
(** [l'] in [h'] is a copy of [l] in [h]. *)
Inductive copy (h h' : heap) : loc -> loc -> Prop :=
| copy_ds l l' m m' : h !! l = Some (ODs m) -> h' !! l' = Some (ODs m') ->
    (forall k, m' !! k = None <-> m !! k = None) ->
    (forall k v v', m !! k = Some v -> m' !! k = Some v' -> copy_value h h' v v') -> copy h h' l l'
| copy_ts l l' d d' : h !! l = Some (OTs (Some d)) -> h' !! l' = Some (OTs (Some d')) -> copy h h' d d' -> copy h h' l l'
| copy_coll l l' ds ds' : h !! l = Some (OColl (map Some ds)) -> h' !! l' = Some (OColl (map Some ds')) ->
    length ds = length ds' ->
    (forall i d d', ds !! i = Some d -> ds' !! i = Some d' -> copy h h' d d') -> copy h h' l l'
| copy_collts l l' ds ds' : h !! l = Some (OCollTS (map Some ds)) -> h' !! l' = Some (OCollTS (map Some ds')) ->
    length ds = length ds' ->
    (forall i d d', ds !! i = Some d -> ds' !! i = Some d' -> copy h h' d d') -> copy h h' l l'
with copy_value (h h' : heap) : value -> value -> Prop :=
| cv_same v : (forall d, v <> VRef d) -> copy_value h h' v v
| cv_ref d d' : copy h h' d d' -> copy_value h h' (VRef d) (VRef d').

(** ** Sources of NewXDataset *)
(** The value a key has in a listed map (keys of a Go map are distinct). *)
Inductive source_at : list (bytes * gval) -> bytes -> option gval -> Prop :=
| sa_none m k : (forall g, (k, g) ∉ m) -> source_at m k None
| sa_some m k g : (k, g) ∈ m -> source_at m k (Some g).

(** A Go value: the keys of every map are distinct. *)
Inductive go_value : gval -> Prop :=
| gv_leaf v : go_value (GLeaf v)
| gv_map m : NoDup m.*1 -> (forall k g, (k, g) ∈ m -> go_value g) -> go_value (GMap m)
| gv_maps ms : (forall m, m ∈ ms -> go_value (GMap m)) -> go_value (GMaps ms)
| gv_list gs : (forall g, g ∈ gs -> go_value g) -> go_value (GList gs).
(** How many of the elements are maps. *)
Fixpoint count_maps (gs : list gval) : nat :=
  match gs with [] => 0%nat | GMap _ :: gs' => S (count_maps gs') | _ :: gs' => count_maps gs' end.
(** The map at index [i] of the collection built from an array. *)
Definition nth_map (gs : list gval) (i : nat) (m : list (bytes * gval)) : Prop :=
  exists j, gs !! j = Some (GMap m) /\ i = count_maps (take j gs).
(** What a path leads to in a source map; paths that go through plain values have no meaning. *)
Inductive source_path : list (bytes * gval) -> list bytes -> option gval -> Prop :=
| sp_last m k g : source_at m k g -> source_path m [k] g
| sp_missing m k p : source_at m k None -> p <> [] -> source_path m (k :: p) None
| sp_map m k m' p g : source_at m k (Some (GMap m')) -> source_path m' p g -> source_path m (k :: p) g
| sp_maps_end m k ms s i m' : source_at m k (Some (GMaps ms)) -> denotes s (Z.of_nat i) -> ms !! i = Some m' ->
    source_path m [k; s] (Some (GMap m'))
| sp_maps m k ms s i m' p g : source_at m k (Some (GMaps ms)) -> denotes s (Z.of_nat i) -> ms !! i = Some m' ->
    source_path m' p g -> source_path m (k :: s :: p) g
| sp_maps_out m k ms s p : source_at m k (Some (GMaps ms)) -> (forall i, denotes s (Z.of_nat i) -> ms !! i = None) ->
    source_path m (k :: s :: p) None
| sp_list_end m k gs s i m' : source_at m k (Some (GList gs)) -> denotes s (Z.of_nat i) -> nth_map gs i m' ->
    source_path m [k; s] (Some (GMap m'))
| sp_list m k gs s i m' p g : source_at m k (Some (GList gs)) -> denotes s (Z.of_nat i) -> nth_map gs i m' ->
    source_path m' p g -> source_path m (k :: s :: p) g
| sp_list_out m k gs s p : source_at m k (Some (GList gs)) -> (forall i m', denotes s (Z.of_nat i) -> ~ nth_map gs i m') ->
    source_path m (k :: s :: p) None.
(** The stored value [v] represents the source [g]; every object of the representation satisfies [P]. *)
Inductive represents (P : loc -> Prop) (h : heap) : gval -> value -> Prop :=
| rep_leaf v : represents P h (GLeaf v) v
| rep_map m d mm : P d -> h !! d = Some (ODs mm) -> (forall k, mm !! k = None <-> source_at m k None) ->
    (forall k g v, source_at m k (Some g) -> mm !! k = Some v -> represents P h g v) -> represents P h (GMap m) (VRef d)
| rep_maps ms c ds : P c -> h !! c = Some (OColl (map Some ds)) -> length ds = length ms ->
    (forall i m d, ms !! i = Some m -> ds !! i = Some d -> represents P h (GMap m) (VRef d)) -> represents P h (GMaps ms) (VRef c)
| rep_list gs c ds : P c -> h !! c = Some (OColl (map Some ds)) -> length ds = count_maps gs ->
    (forall i m d, nth_map gs i m -> ds !! i = Some d -> represents P h (GMap m) (VRef d)) -> represents P h (GList gs) (VRef c).

(** ** Collections as double ended queues *)
Inductive deque_op := DPush (d : option loc) | DPop | DShift | DUnshift (d : option loc) | DCount | DGet (i : Z).
Inductive deque_answer := DUnit | DElement (d : option loc) | DNumber (z : Z) | DFound (d : option loc) | DNotFound.
Inductive deque_step : list (option loc) -> deque_op -> list (option loc) -> deque_answer -> Prop :=
| dq_push xs d : deque_step xs (DPush d) (xs ++ [d]) DUnit
| dq_pop xs d : deque_step (xs ++ [d]) DPop xs (DElement d)
| dq_shift xs d : deque_step (d :: xs) DShift xs (DElement d)
| dq_unshift xs d : deque_step xs (DUnshift d) (d :: xs) DUnit
| dq_count xs : deque_step xs DCount xs (DNumber (Z.of_nat (length xs)))
| dq_get xs ys d : deque_step (xs ++ d :: ys) (DGet (Z.of_nat (length xs))) (xs ++ d :: ys) (DFound d)
| dq_get_none xs i : i < 0 \/ Z.of_nat (length xs) <= i -> deque_step xs (DGet i) xs DNotFound.
Inductive deque_run : list (option loc) -> list deque_op -> list (option loc) -> list deque_answer -> Prop :=
| dqr_nil xs : deque_run xs [] xs []
| dqr_cons xs o ys a os zs rs : deque_step xs o ys a -> deque_run ys os zs rs -> deque_run xs (o :: os) zs (a :: rs).
