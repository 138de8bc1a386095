(** * Execution of a template while other goroutines change the data (C116): the meaning of the elements
    over a course of time.

    [H m] is the data at the moment [m].  The relations are those of RenderSpec.v, with a moment for
    every look at the data: the looks come one after the other in the order of the elements, and
    between them anything may happen. *)
From Verif Require Import GoBase GoStrings DatasetModel LangModel DatasetSpec DatasetProofs2 TemplateModel TemplateSpec RenderSpec HoleSpec ParModel.
Local Open Scope nat_scope.

(** A course of goroutines up to the moment [T]. *)
Definition course {A} (T : nat) (path : nat -> heap * list (act A)) : Prop := forall m, m < T -> par_step (path m) (path (S m)).

Section Mean.
  Context (F : golib) (ord : heap -> gmap bytes value -> list (bytes * value)) (th : theap) (lg : option lang).
  Context (H : nat -> heap).
  (** From the moment [i] on the scope is searched, innermost dataset first, until the moment [j]. *)
  Inductive finds : nat -> list loc -> bytes -> option value -> nat -> Prop :=
  | fi_empty i key : finds i [] key None i
  | fi_here i m d sc key v : i <= m -> answers (H m) d key (Some v) -> finds i (d :: sc) key (Some v) (S m)
  | fi_outer i m d sc key r j : i <= m -> answers (H m) d key None -> finds (S m) sc key r j -> finds i (d :: sc) key r j.
  (** The text of a field; the value is found first and printed later. *)
  Inductive says_field : nat -> list loc -> bytes -> bytes -> nat -> Prop :=
  | sf_missing i sc key j : finds i sc key None j -> says_field i sc key [] j
  | sf_nil i sc key j : finds i sc key (Some VNil) j -> says_field i sc key [] j
  | sf_value i sc key v s j m : finds i sc key (Some v) j -> v <> VNil -> j <= m -> prints F ord (H m) v s -> says_field i sc key s (S m).
  (** The template for element [n]: the collection is counted once more if neither .key.n nor .first is there. *)
  Inductive picks : nat -> loc -> bytes -> nat -> loc -> option loc -> nat -> Prop :=
  | pi_own i t b n c y : choose th t ([dotted b (B "key." ++ itoa (Z.of_nat n))] ++ (if decide (n = 0) then [dotted b (B "first")] else [])) (Some y) ->
      picks i t b n c (Some y) i
  | pi_place i t b n c m xs q : choose th t ([dotted b (B "key." ++ itoa (Z.of_nat n))] ++ (if decide (n = 0) then [dotted b (B "first")] else [])) None ->
      i <= m -> collection_at (H m) c xs ->
      choose th t ((if decide (S n = length xs) then [dotted b (B "last")] else []) ++ (if Nat.even n then [dotted b (B "even")] else [])) q ->
      picks i t b n c q (S m).
  (** [shows i sc t j out]: from the moment [i] to the moment [j] the template [t] in the scope [sc] gives [out]. *)
  Inductive shows : nat -> list loc -> loc -> nat -> bytes -> Prop :=
  | sh_root i sc t T l j out : th !! t = Some T -> t_root T = Some (map stored l) -> shows_all i sc t l j out -> shows i sc t j out
  | sh_not_compiled i sc t T : th !! t = Some T -> t_root T = None -> shows i sc t i (B "Error, no template.Root compiled")
  with shows_all : nat -> list loc -> loc -> list token -> nat -> bytes -> Prop :=
  | sa_nil i sc t : shows_all i sc t [] i []
  | sa_cons i sc t k l i1 j a b : shows_one i sc t k i1 a -> shows_all i1 sc t l j b -> shows_all i sc t (k :: l) j (a ++ b)
  with shows_opt : nat -> list loc -> option loc -> nat -> bytes -> Prop :=
  | sp_none i sc : shows_opt i sc None i []
  | sp_some i sc t j out : shows i sc t j out -> shows_opt i sc (Some t) j out
  with shows_one : nat -> list loc -> loc -> token -> nat -> bytes -> Prop :=
  | so_text i sc t s : shows_one i sc t (TText s) i s
  | so_comment i sc t s : shows_one i sc t (TComment s) i []
  | so_lang i sc t s g v : lg = Some g -> l_entries g !! s = Some v -> shows_one i sc t (TLang s) i v
  | so_lang_missing i sc t s : (forall g, lg = Some g -> l_entries g !! s = None) -> shows_one i sc t (TLang s) i []
  | so_var i sc t s j out : says_field i sc s out j -> shows_one i sc t (TVar s) j out
  | so_dump i sc d t s m out : s = B "dump" \/ s = B "list" -> i <= m -> dumps F ord (H m) d out -> shows_one i (sc ++ [d]) t (TDump s) (S m) out
  | so_dump_other i sc t s : s <> B "dump" -> s <> B "list" -> shows_one i sc t (TDump s) i []
  (* &&a:field:prefix&& *)
  | so_ref_select i sc t s a field prefix v r i1 j out : separated ":"%char s a [field; prefix] -> says_field i sc field v i1 ->
      choose th t [prefix ++ v; prefix] r -> shows_opt i1 sc r j out -> shows_one i sc t (TRef s) j out
  (* &&a:field&& *)
  | so_ref_narrow i sc t s a field x d i1 m j out : separated ":"%char s a [field] -> visible th t a (Some x) ->
      finds i sc field (Some (VRef d)) i1 -> i1 <= m -> dataset_at (H m) d -> shows (S m) (d :: sc) x j out -> shows_one i sc t (TRef s) j out
  | so_ref_keep i sc t s a field x r i1 m j out : separated ":"%char s a [field] -> visible th t a (Some x) ->
      finds i sc field r i1 -> i1 <= m -> (forall d, r = Some (VRef d) -> ~ dataset_at (H m) d) -> shows (S m) sc x j out -> shows_one i sc t (TRef s) j out
  (* &&a&& *)
  | so_ref i sc t s a ws x j out : separated ":"%char s a ws -> length ws <> 1 -> length ws <> 2 ->
      visible th t a (Some x) -> shows i sc x j out -> shows_one i sc t (TRef s) j out
  | so_ref_unknown i sc t s a ws : separated ":"%char s a ws -> length ws <> 2 -> visible th t a None -> shows_one i sc t (TRef s) i []
  (* @@d:b@@ *)
  | so_range i sc t s d b x c i1 m1 m2 xs1 xs j out : data_template s d b -> visible th t b (Some x) -> finds i sc d (Some (VRef c)) i1 ->
      i1 <= m1 -> collection_at (H m1) c xs1 -> m1 < m2 -> collection_at (H m2) c xs -> xs <> [] ->
      passes (S m2) sc t b x 0 c j out -> shows_one i sc t (TRange s) j out
  | so_range_empty i sc t s d b x c i1 m1 m2 xs1 q j out : data_template s d b -> visible th t b (Some x) -> finds i sc d (Some (VRef c)) i1 ->
      i1 <= m1 -> collection_at (H m1) c xs1 -> m1 < m2 -> collection_at (H m2) c [] ->
      visible th t (dotted b (B "none")) q -> shows (S m2) sc (or_else q x) j out -> shows_one i sc t (TRange s) j out
  | so_range_none i sc t s d b x r i1 m q j out : data_template s d b -> visible th t b (Some x) -> finds i sc d r i1 ->
      i1 <= m -> (forall c xs, r = Some (VRef c) -> ~ collection_at (H m) c xs) ->
      visible th t (dotted b (B "none")) q -> shows (S m) sc (or_else q x) j out -> shows_one i sc t (TRange s) j out
  | so_range_unknown i sc t s d b : data_template s d b -> visible th t b None -> shows_one i sc t (TRange s) i []
  (* ??d:b?? *)
  | so_cond_dataset i sc t s d b x v q i1 m i2 m2 out u : data_template s d b -> visible th t b (Some x) -> finds i sc d (Some (VRef v)) i1 ->
      i1 <= m -> dataset_at (H m) v -> visible th t (dotted b (B "array")) q -> shows (S m) (v :: sc) (or_else q x) i2 out ->
      i2 <= m2 -> prints F ord (H m2) (VRef v) u -> shows_one i sc t (TCond s) (S m2) out
  | so_cond_value i sc t s d b x v w q i1 m m1 i2 m2 out u : data_template s d b -> visible th t b (Some x) -> finds i sc d (Some v) i1 ->
      v <> VNil -> i1 <= m -> (forall l, v = VRef l -> ~ dataset_at (H m) l) -> m < m1 -> prints F ord (H m1) v w -> w <> [] ->
      visible th t (dotted b w) q -> shows (S m1) sc (or_else q x) i2 out -> i2 <= m2 -> prints F ord (H m2) v u ->
      shows_one i sc t (TCond s) (S m2) out
  | so_cond_unknown i sc t s d b v w i1 m : data_template s d b -> visible th t b None -> finds i sc d (Some v) i1 ->
      v <> VNil -> i1 <= m -> prints F ord (H m) v w -> w <> [] -> shows_one i sc t (TCond s) (S m) []
  | so_cond_nil i sc t s d b r p q i1 j out : data_template s d b -> visible th t b p -> finds i sc d r i1 -> r = None \/ r = Some VNil ->
      visible th t (dotted b (B "none")) q -> shows_opt i1 sc (match q with Some x => Some x | None => p end) j out ->
      shows_one i sc t (TCond s) j out
  | so_cond_empty i sc t s d b v p q i1 m j out : data_template s d b -> visible th t b p -> finds i sc d (Some v) i1 -> v <> VNil ->
      i1 <= m -> prints F ord (H m) v [] ->
      visible th t (dotted b (B "none")) q -> shows_opt (S m) sc (match q with Some x => Some x | None => p end) j out ->
      shows_one i sc t (TCond s) j out
  (** The elements of the collection [c] from number [n] on, as long as there are so many. *)
  with passes : nat -> list loc -> loc -> bytes -> loc -> nat -> loc -> nat -> bytes -> Prop :=
  | ps_end i sc t b x n c m xs : i <= m -> collection_at (H m) c xs -> length xs <= n -> passes i sc t b x n c (S m) []
  | ps_next i sc t b x n c m xs q i1 m1 ys d m2 i2 j o1 o2 :
      i <= m -> collection_at (H m) c xs -> n < length xs -> picks (S m) t b n c q i1 ->
      i1 <= m1 -> collection_at (H m1) c ys -> ys !! n = Some (Some d) ->
      m1 < m2 -> counts (H m2) d n (H (S m2)) -> shows (S m2) (d :: sc) (or_else q x) i2 o1 ->
      passes i2 sc t b x (S n) c j o2 -> passes i sc t b x n c j (o1 ++ o2).
End Mean.
Scheme shows_mind := Minimality for shows Sort Prop
  with shows_all_mind := Minimality for shows_all Sort Prop
  with shows_opt_mind := Minimality for shows_opt Sort Prop
  with shows_one_mind := Minimality for shows_one Sort Prop
  with passes_mind := Minimality for passes Sort Prop.
Combined Scheme shows_mutind from shows_mind, shows_all_mind, shows_opt_mind, shows_one_mind, passes_mind.

(** ** What the others change is not looked at *)
(** [W]: the keys that may be changed.  From the data only what is not under them can be seen. *)
Inductive shown (W : bytes -> Prop) (h : heap) : loc -> loc -> Prop :=
| sn_ds l m k d : h !! l = Some (ODs m) -> ~ W k -> m !! k = Some (VRef d) -> shown W h l d
| sn_ts l d : h !! l = Some (OTs (Some d)) -> shown W h l d
| sn_coll l xs d : collection_at h l xs -> Some d ∈ xs -> shown W h l d.
Definition seen (W : bytes -> Prop) (h : heap) : loc -> loc -> Prop := rtc (shown W h).
(** Of all that is seen from [d] in [h], only entries under the keys [W] are different in [h']. *)
Definition untouched (W : bytes -> Prop) (h : heap) (d : loc) (h' : heap) : Prop :=
  forall x, seen W h d x -> match h !! x with
    | Some (ODs m) => exists m', h' !! x = Some (ODs m') /\ forall k, ~ W k -> m' !! k = m !! k
    | o => h' !! x = o
    end.
(** The path has no word in [W]. *)
Definition avoids (W : bytes -> Prop) (key : bytes) : Prop := forall w ws, separated ">"%char key w ws -> Forall (fun k => ~ W k) (w :: ws).
(** The elements that look at no key of [W]; values printed or tested are no objects. *)
Inductive blind (W : bytes -> Prop) (h : heap) (d0 : loc) : token -> Prop :=
| bd_text s : blind W h d0 (TText s)
| bd_comment s : blind W h d0 (TComment s)
| bd_lang s : blind W h d0 (TLang s)
| bd_dump s : s <> B "dump" -> s <> B "list" -> blind W h d0 (TDump s)
| bd_var s : avoids W s -> (forall d l, seen W h d0 d -> ~ answers h d s (Some (VRef l))) -> blind W h d0 (TVar s)
| bd_ref s : (forall a field, separated ":"%char s a [field] -> avoids W field) ->
    (forall a field prefix, separated ":"%char s a [field; prefix] ->
      avoids W field /\ forall d l, seen W h d0 d -> ~ answers h d field (Some (VRef l))) -> blind W h d0 (TRef s)
| bd_range s : (forall d b, data_template s d b -> avoids W d) -> blind W h d0 (TRange s)
| bd_cond s : (forall d b, data_template s d b ->
      avoids W d /\ forall x l, seen W h d0 x -> ~ answers h x d (Some (VRef l))) -> blind W h d0 (TCond s).
(** Goroutines that change, of the objects [S], only entries of datasets under the keys [W]. *)
Definition gentle (W : bytes -> Prop) (S : loc -> Prop) (w : heap -> heap) : Prop :=
  forall h x, S x -> match h !! x with
    | Some (ODs m) => exists m', w h !! x = Some (ODs m') /\ forall k, ~ W k -> m' !! k = m !! k
    | o => w h !! x = o
    end.
Fixpoint tame {A} (W : bytes -> Prop) (S : loc -> Prop) (p : act A) : Prop :=
  match p with Act w k => gentle W S w /\ forall h, tame W S (k h) | _ => True end.
(** A goroutine that makes one change and ends. *)
Definition changes (f : heap -> outcome heap) : act bytes := _ <~ write f; Ret [].
