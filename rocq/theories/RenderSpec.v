(** * Meaning of the elements of a template, as a relation.
    Uses the readings of TemplateSpec.v (words, visibility of templates), the meaning of paths
    of DatasetSpec.v and the texts that package fmt and the String methods give to values. *)
From Verif Require Import GoBase GoStrings DatasetModel LangModel DatasetSpec DatasetProofs2 TemplateModel TemplateSpec.
Local Open Scope Z_scope.

(** The words of [s] between the separators [c]. *)
Definition separated (c : ascii) (s w : bytes) (ws : list bytes) : Prop :=
  Forall (fun x => c ∉ x) (w :: ws) /\ s = w ++ concat (map (cons c) ws).
(** The answer of a dataset for a path. *)
Definition answers (h : heap) (d : loc) (key : bytes) (r : option value) : Prop :=
  exists s segs, separated ">"%char key s segs /\ at_path h d (s :: segs) r.
(** The answer of the innermost dataset of the scope that has one; the scope lists the
    innermost dataset first. *)
Inductive found (h : heap) : list loc -> bytes -> option value -> Prop :=
| fd_empty key : found h [] key None
| fd_here d sc key v : answers h d key (Some v) -> found h (d :: sc) key (Some v)
| fd_outer d sc key r : answers h d key None -> found h sc key r -> found h (d :: sc) key r.
(** The first of the names that is visible. *)
Inductive choose (th : theap) (t : loc) : list bytes -> option loc -> Prop :=
| ch_none : choose th t [] None
| ch_here n ns x : visible th t n (Some x) -> choose th t (n :: ns) (Some x)
| ch_next n ns r : visible th t n None -> choose th t ns r -> choose th t (n :: ns) r.
Definition or_else (r : option loc) (x : loc) : loc := match r with Some y => y | None => x end.
(** @@data:template@@, ??data:template??; one name stands for both. *)
Definition data_template (s d b : bytes) : Prop :=
  (separated ":"%char s d [] /\ b = d) \/ exists ws, separated ":"%char s d (b :: ws).
Definition dotted (a b : bytes) : bytes := a ++ B "." ++ b.
(** The names tried for element [i] of [n]. *)
Definition element_names (b : bytes) (i n : nat) : list bytes :=
  [dotted b (B "key." ++ itoa (Z.of_nat i))] ++ (if decide (i = 0%nat) then [dotted b (B "first")] else []) ++
  (if decide (S i = n) then [dotted b (B "last")] else []) ++ (if Nat.even i then [dotted b (B "even")] else []).
(** The element [d], possibly behind wrappers, receives its position. *)
Definition counts (h : heap) (d : loc) (i : nat) (h' : heap) : Prop :=
  exists x m, inside h d x m /\ h' = <[x := ODs (<[B ".counter" := VInt KInt (Z.of_nat i + 1)]> m)]> h.

Section Renders.
  Context (F : golib) (ord : heap -> gmap bytes value -> list (bytes * value)).
  (** fmt.Sprint of a value; GoString of a dataset. *)
  Definition prints (h : heap) (v : value) (s : bytes) : Prop := exists n, sprint F ord n h v = Ok s.
  Definition dumps (h : heap) (d : loc) (s : bytes) : Prop := exists n, show F ord n h true d = Ok s.
  (** The text of a field: nothing if it is missing or nil. *)
  Inductive field_text (h : heap) (sc : list loc) (key : bytes) : bytes -> Prop :=
  | ft_missing : found h sc key None -> field_text h sc key []
  | ft_nil : found h sc key (Some VNil) -> field_text h sc key []
  | ft_value v s : found h sc key (Some v) -> v <> VNil -> prints h v s -> field_text h sc key s.
  (** The condition has no value: missing, nil or empty text. *)
  Inductive blank (h : heap) : option value -> Prop :=
  | bl_missing : blank h None
  | bl_nil : blank h (Some VNil)
  | bl_empty v : v <> VNil -> prints h v [] -> blank h (Some v).
  Context (th : theap) (lg : option lang).
  (** [renders h sc t h' out]: in the scope [sc] the template [t] gives the text [out] and
      leaves the data [h'].  [renders_one]: one element of [t]; [loops]: the elements from
      number [i] on of a collection of [n], with the template [b]. *)
  Inductive renders : heap -> list loc -> loc -> heap -> bytes -> Prop :=
  | rd_root h sc t T l h' out : th !! t = Some T -> t_root T = Some (map stored l) ->
      renders_all h sc t l h' out -> renders h sc t h' out
  | rd_not_compiled h sc t T : th !! t = Some T -> t_root T = None -> renders h sc t h (B "Error, no template.Root compiled")
  with renders_all : heap -> list loc -> loc -> list token -> heap -> bytes -> Prop :=
  | ra_nil h sc t : renders_all h sc t [] h []
  | ra_cons h sc t k l h1 h2 a b : renders_one h sc t k h1 a -> renders_all h1 sc t l h2 b ->
      renders_all h sc t (k :: l) h2 (a ++ b)
  with renders_opt : heap -> list loc -> option loc -> heap -> bytes -> Prop :=
  | rp_none h sc : renders_opt h sc None h []
  | rp_some h sc t h' out : renders h sc t h' out -> renders_opt h sc (Some t) h' out
  with renders_one : heap -> list loc -> loc -> token -> heap -> bytes -> Prop :=
  | ro_text h sc t s : renders_one h sc t (TText s) h s
  | ro_comment h sc t s : renders_one h sc t (TComment s) h []
  | ro_lang h sc t s g v : lg = Some g -> l_entries g !! s = Some v -> renders_one h sc t (TLang s) h v
  | ro_lang_missing h sc t s : (forall g, lg = Some g -> l_entries g !! s = None) -> renders_one h sc t (TLang s) h []
  | ro_var h sc t s out : field_text h sc s out -> renders_one h sc t (TVar s) h out
  | ro_dump h sc d t s out : s = B "dump" \/ s = B "list" -> dumps h d out -> renders_one h (sc ++ [d]) t (TDump s) h out
  | ro_dump_other h sc t s : s <> B "dump" -> s <> B "list" -> renders_one h sc t (TDump s) h []
  (* &&a:field:prefix&& *)
  | ro_ref_select h sc t s a field prefix v r h' out : separated ":"%char s a [field; prefix] -> field_text h sc field v ->
      choose th t [prefix ++ v; prefix] r -> renders_opt h sc r h' out -> renders_one h sc t (TRef s) h' out
  (* &&a:field&& *)
  | ro_ref_narrow h sc t s a field x d h' out : separated ":"%char s a [field] -> visible th t a (Some x) ->
      found h sc field (Some (VRef d)) -> dataset_at h d -> renders h (d :: sc) x h' out -> renders_one h sc t (TRef s) h' out
  | ro_ref_keep h sc t s a field x r h' out : separated ":"%char s a [field] -> visible th t a (Some x) ->
      found h sc field r -> (forall d, r = Some (VRef d) -> ~ dataset_at h d) -> renders h sc x h' out -> renders_one h sc t (TRef s) h' out
  (* &&a&&; more than three parts are as one *)
  | ro_ref h sc t s a ws x h' out : separated ":"%char s a ws -> length ws <> 1%nat -> length ws <> 2%nat ->
      visible th t a (Some x) -> renders h sc x h' out -> renders_one h sc t (TRef s) h' out
  | ro_ref_unknown h sc t s a ws : separated ":"%char s a ws -> length ws <> 2%nat -> visible th t a None ->
      renders_one h sc t (TRef s) h []
  (* @@d:b@@ *)
  | ro_range h sc t s d b x c xs h' out : data_template s d b -> visible th t b (Some x) -> found h sc d (Some (VRef c)) ->
      collection_at h c xs -> xs <> [] -> loops h sc t b x 0 (length xs) xs h' out -> renders_one h sc t (TRange s) h' out
  | ro_range_none h sc t s d b x r q h' out : data_template s d b -> visible th t b (Some x) -> found h sc d r ->
      (forall c xs, r = Some (VRef c) -> collection_at h c xs -> xs = []) -> visible th t (dotted b (B "none")) q ->
      renders h sc (or_else q x) h' out -> renders_one h sc t (TRange s) h' out
  | ro_range_unknown h sc t s d b : data_template s d b -> visible th t b None -> renders_one h sc t (TRange s) h []
  (* ??d:b?? *)
  | ro_cond_dataset h sc t s d b x v q h' out u : data_template s d b -> visible th t b (Some x) -> found h sc d (Some (VRef v)) ->
      dataset_at h v -> visible th t (dotted b (B "array")) q -> renders h (v :: sc) (or_else q x) h' out -> prints h' (VRef v) u ->
      renders_one h sc t (TCond s) h' out
  | ro_cond_value h sc t s d b x v w q h' out u : data_template s d b -> visible th t b (Some x) -> found h sc d (Some v) ->
      v <> VNil -> (forall l, v = VRef l -> ~ dataset_at h l) -> prints h v w -> w <> [] -> visible th t (dotted b w) q ->
      renders h sc (or_else q x) h' out -> prints h' v u -> renders_one h sc t (TCond s) h' out
  | ro_cond_unknown h sc t s d b v w : data_template s d b -> visible th t b None -> found h sc d (Some v) ->
      v <> VNil -> prints h v w -> w <> [] -> renders_one h sc t (TCond s) h []
  | ro_cond_blank h sc t s d b r p q h' out : data_template s d b -> visible th t b p -> found h sc d r -> blank h r ->
      visible th t (dotted b (B "none")) q -> renders_opt h sc (match q with Some x => Some x | None => p end) h' out ->
      renders_one h sc t (TCond s) h' out
  with loops : heap -> list loc -> loc -> bytes -> loc -> nat -> nat -> list (option loc) -> heap -> bytes -> Prop :=
  | lp_end h sc t b x i n : loops h sc t b x i n [] h []
  | lp_next h sc t b x i n d ds q h1 h2 h3 o1 o2 : choose th t (element_names b i n) q -> counts h d i h1 ->
      renders h1 (d :: sc) (or_else q x) h2 o1 -> loops h2 sc t b x (S i) n ds h3 o2 ->
      loops h sc t b x i n (Some d :: ds) h3 (o1 ++ o2).
End Renders.
Scheme renders_mind := Minimality for renders Sort Prop
  with renders_all_mind := Minimality for renders_all Sort Prop
  with renders_opt_mind := Minimality for renders_opt Sort Prop
  with renders_one_mind := Minimality for renders_one Sort Prop
  with loops_mind := Minimality for loops Sort Prop.
Combined Scheme renders_mutind from renders_mind, renders_all_mind, renders_opt_mind, renders_one_mind, loops_mind.

(** What rendering may change: the counters of datasets that are elements of collections. *)
Definition counted (h h' : heap) : Prop :=
  forall x, h' !! x = h !! x \/
    exists m c xs i d, h !! x = Some (ODs m) /\ collection_at h c xs /\ xs !! i = Some (Some d) /\ inside h d x m /\
      h' !! x = Some (ODs (<[B ".counter" := VInt KInt (Z.of_nat i + 1)]> m)).
(** Every compiled text is made of the words a template may contain directly. *)
Definition compiled (th : theap) : Prop :=
  forall t T ps, th !! t = Some T -> t_root T = Some ps ->
    exists l, ps = map stored l /\ Forall (fun k => k <> TClose /\ forall n, k <> TOpen n) l.
(** ** Execute with data *)
(** The language: entry # of the data, if it is one. *)
Definition language_of (langs : nat -> option lang) (h : heap) (d : loc) (lg : option lang) : Prop :=
  exists r, answers h d (B "#") r /\
    ((exists k, r = Some (VOther k) /\ lg = langs k) \/ ((forall k, r <> Some (VOther k)) /\ lg = None)).
Definition executes F ord langs th h t d h' out : Prop :=
  exists lg, language_of langs h d lg /\ renders F ord th lg h [d] t h' out.
(** [S] contains [t] and every template visible from its members; none of them has a loop. *)
Definition loop_free (th : theap) (t : loc) : Prop :=
  exists S : loc -> Prop, S t /\ (forall x n y, S x -> visible th x n (Some y) -> S y) /\
    forall x T l s, S x -> th !! x = Some T -> t_root T = Some (map stored l) -> TRange s ∉ l.

(** ** Execute without data; [None] is a panic *)
Inductive nil_renders (th : theap) : loc -> option bytes -> Prop :=
| nr_root t T l r : th !! t = Some T -> t_root T = Some (map stored l) -> nil_all th t l r -> nil_renders th t r
| nr_not_compiled t T : th !! t = Some T -> t_root T = None -> nil_renders th t (Some (B "Error, no template.Root compiled"))
with nil_all (th : theap) : loc -> list token -> option bytes -> Prop :=
| na_nil t : nil_all th t [] (Some [])
| na_cons t k l a b : nil_one th t k (Some a) -> nil_all th t l (Some b) -> nil_all th t (k :: l) (Some (a ++ b))
| na_panic t k l : nil_one th t k None -> nil_all th t (k :: l) None
| na_later t k l a : nil_one th t k (Some a) -> nil_all th t l None -> nil_all th t (k :: l) None
with nil_one (th : theap) : loc -> token -> option bytes -> Prop :=
| no_text t s : nil_one th t (TText s) (Some s)
| no_comment t s : nil_one th t (TComment s) (Some [])
| no_lang t s : nil_one th t (TLang s) (Some [])
| no_var t s : nil_one th t (TVar s) (Some [])
| no_dump t s : nil_one th t (TDump s) (Some [])
| no_range t s d b r : data_template s d b -> visible th t b r -> nil_one th t (TRange s) (Some [])
| no_ref t s a ws x r : separated ":"%char s a ws -> length ws <> 1%nat -> length ws <> 2%nat -> visible th t a (Some x) ->
    nil_renders th x r -> nil_one th t (TRef s) r
| no_ref_unknown t s a ws : separated ":"%char s a ws -> length ws <> 2%nat -> visible th t a None -> nil_one th t (TRef s) (Some [])
| no_ref_narrow t s a f x : separated ":"%char s a [f] -> visible th t a (Some x) -> nil_one th t (TRef s) None
| no_ref_select t s a f p : separated ":"%char s a [f; p] -> nil_one th t (TRef s) None
| no_cond t s d b p q x r : data_template s d b -> visible th t b p -> visible th t (dotted b (B "none")) q ->
    match q with Some y => Some y | None => p end = Some x -> nil_renders th x r -> nil_one th t (TCond s) r
| no_cond_unknown t s d b : data_template s d b -> visible th t b None -> visible th t (dotted b (B "none")) None ->
    nil_one th t (TCond s) (Some []).
Scheme nil_renders_mind := Minimality for nil_renders Sort Prop
  with nil_all_mind := Minimality for nil_all Sort Prop
  with nil_one_mind := Minimality for nil_one Sort Prop.
Combined Scheme nil_mutind from nil_renders_mind, nil_all_mind, nil_one_mind.
(** Every template that is mentioned exists. *)
Definition closed (th : theap) : Prop :=
  (forall t T n x, th !! t = Some T -> subs_of T !! n = Some x -> is_Some (th !! x)) /\
  (forall t T f, th !! t = Some T -> t_father T = Some f -> is_Some (th !! f)).

(** ** Which names an element may look up from its template *)
Inductive may_call : token -> bytes -> Prop :=
| mc_ref s a ws : separated ":"%char s a ws -> length ws <> 2%nat -> may_call (TRef s) a
| mc_select s a f p v : separated ":"%char s a [f; p] -> may_call (TRef s) (p ++ v)
| mc_range s d b : data_template s d b -> may_call (TRange s) b
| mc_range_choice s d b w : data_template s d b -> may_call (TRange s) (dotted b w)
| mc_cond s d b : data_template s d b -> may_call (TCond s) b
| mc_cond_value s d b w : data_template s d b -> may_call (TCond s) (dotted b w).
(** Calls descend. *)
Definition ranked (th : theap) (rank : loc -> nat) : Prop :=
  forall t T l k n x, th !! t = Some T -> t_root T = Some (map stored l) -> k ∈ l -> may_call k n -> visible th t n (Some x) ->
    (rank x < rank t)%nat.
(** Looking up through the fathers ends. *)
Definition rooted (th : theap) : Prop :=
  forall t, Acc (fun y x => exists T, th !! x = Some T /\ t_father T = Some y) t.
(** The Father of a sub template is the template that holds it. *)
Definition consistent (th : theap) : Prop :=
  forall t T n x, th !! t = Some T -> subs_of T !! n = Some x -> exists X, th !! x = Some X /\ t_father X = Some t.
(** Go may list the entries of a map in any order. *)
Definition any_order (tord : theap -> gmap bytes loc -> list (bytes * loc)) : Prop := forall th m, tord th m ≡ₚ map_to_list m.
(** The templates that loading alone can make: NewXTemplate* and Load* on templates that exist. *)
Inductive built : theap -> Prop :=
| bt_none : built ∅
| bt_new th data : built th -> built (new_template th data).1
| bt_load th t data : built th -> is_Some (th !! t) -> built (compile th t data).1.
