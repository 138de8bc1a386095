(** * Specification of the template of the root package (version 1), independent of the functions
    of V1Template.v (but for [built1]).  Uses the words of TemplateSpec.v and the data of RenderSpec.v. *)
From Verif Require Import GoBase GoStrings DatasetModel LangModel DatasetSpec DatasetProofs2 TemplateModel TemplateSpec RenderSpec V1Template.
Local Open Scope Z_scope.

(** ** Words *)
(** [w] ends at the first mark [e] that leaves it non empty. *)
Definition shortest (e w : bytes) : Prop := w <> [] /\ forall a b, a <> [] -> b <> [] -> w ++ e <> a ++ e ++ b.
(** [starts1 s t r]: [s] starts with the element [t] and continues with [r].  The six elements
    accept any text between their marks. *)
Inductive starts1 : bytes -> token -> bytes -> Prop :=
| s1_comment body s r : (forall a b, body <> a ++ B "--%" ++ b) -> line_end s r ->
    starts1 (B "%--" ++ body ++ B "--%" ++ s) (TComment body) r
| s1_lang w r : shortest (B "##") w -> starts1 (B "##" ++ w ++ B "##" ++ r) (TLang w) r
| s1_ref w r : shortest (B "&&") w -> starts1 (B "&&" ++ w ++ B "&&" ++ r) (TRef w) r
| s1_range w r : shortest (B "@@") w -> starts1 (B "@@" ++ w ++ B "@@" ++ r) (TRange w) r
| s1_cond w r : shortest (B "??") w -> starts1 (B "??" ++ w ++ B "??" ++ r) (TCond w) r
| s1_dump w r : shortest (B "!!") w -> starts1 (B "!!" ++ w ++ B "!!" ++ r) (TDump w) r
| s1_var w r : shortest (B "}}") w -> starts1 (B "{{" ++ w ++ B "}}" ++ r) (TVar w) r
| s1_open w s r : w <> [] -> Forall name_char w -> line_end s r -> starts1 (B "[[" ++ w ++ B "]]" ++ s) (TOpen w) r
| s1_close s r : line_end s r -> starts1 (B "[[]]" ++ s) TClose r.
Definition element_here1 (s : bytes) : Prop := exists t r, starts1 s t r.
Inductive reads1 : bytes -> list token -> Prop :=
| reads1_end : reads1 [] []
| reads1_element s t r l : starts1 s t r -> reads1 r l -> reads1 s (t :: l)
| reads1_text a s l : a <> [] -> (forall x y, a = x ++ y -> y <> [] -> ~ element_here1 (y ++ s)) ->
    (s = [] \/ element_here1 s) -> reads1 s l -> reads1 (a ++ s) (TText a :: l).
(** The name of the element is one that version 2 accepts. *)
Definition known_name (t : token) : Prop :=
  match t with
  | TLang w => Forall entry_char w
  | TRef w | TRange w | TCond w | TDump w | TVar w => Forall field_char w
  | _ => True
  end.

(** ** Boxes: as in version 2, without fathers *)
Inductive box_ok1 (th : theap) : item -> Prop :=
| b1_leaf k : box_ok1 th (Leaf k)
| b1_box x nm body X : th !! x = Some X -> t_name X = nm -> t_root X = Some (map stored (leaves body)) ->
    registers ∅ body (t_subs X) -> (forall i, i ∈ body -> box_ok1 th i) -> box_ok1 th (Box x nm body).
Definition loaded1 (th : theap) (old : gmap bytes loc) (t : loc) (is : list item) : Prop :=
  exists T, th !! t = Some T /\ t_root T = Some (map stored (leaves is)) /\ registers old is (t_subs T) /\
    forall i, i ∈ is -> box_ok1 th i.
(** Version 1 has no Father. *)
Definition fatherless (th : theap) : Prop := forall t T, th !! t = Some T -> t_father T = None.
(** A name is looked up in the template itself only. *)
Definition has (th : theap) (t : loc) (n : bytes) (r : option loc) : Prop := exists T, th !! t = Some T /\ r = subs_of T !! n.
Inductive choose1 (th : theap) (t : loc) : list bytes -> option loc -> Prop :=
| c1_none : choose1 th t [] None
| c1_here n ns x : has th t n (Some x) -> choose1 th t (n :: ns) (Some x)
| c1_next n ns r : has th t n None -> choose1 th t ns r -> choose1 th t (n :: ns) r.

(** ** Meaning.  A result [None] is a panic.  A scope lists the innermost dataset first; [None]
    in it is a nil dataset (an element of a collection may be nil). *)
Section Meaning.
  Context (F : golib) (ord : heap -> gmap bytes value -> list (bytes * value)) (h : heap).
  Inductive found1 : list (option loc) -> bytes -> option (option value) -> Prop :=
  | f1_empty key : found1 [] key (Some None)
  | f1_nil sc key : found1 (None :: sc) key None
  | f1_here d sc key v : answers h d key (Some v) -> found1 (Some d :: sc) key (Some (Some v))
  | f1_outer d sc key r : answers h d key None -> found1 sc key r -> found1 (Some d :: sc) key r.
  Inductive text1 (sc : list (option loc)) (key : bytes) : option bytes -> Prop :=
  | t1_missing : found1 sc key (Some None) -> text1 sc key (Some [])
  | t1_nil : found1 sc key (Some (Some VNil)) -> text1 sc key (Some [])
  | t1_value v s : found1 sc key (Some (Some v)) -> v <> VNil -> prints F ord h v s -> text1 sc key (Some s)
  | t1_panic : found1 sc key None -> text1 sc key None.
  Context (th : theap) (lg : option lang).
  (** The scope is [None] without data. *)
  Notation scope := (option (list (option loc))).
  Inductive renders1 : scope -> loc -> option bytes -> Prop :=
  | r1_root sc t T l r : th !! t = Some T -> t_root T = Some (map stored l) -> all1 sc t l r -> renders1 sc t r
  | r1_not_compiled sc t T : th !! t = Some T -> t_root T = None -> renders1 sc t (Some (B "Error, no template.Root compiled"))
  with all1 : scope -> loc -> list token -> option bytes -> Prop :=
  | a1_nil sc t : all1 sc t [] (Some [])
  | a1_cons sc t k l a b : one1 sc t k (Some a) -> all1 sc t l (Some b) -> all1 sc t (k :: l) (Some (a ++ b))
  | a1_panic sc t k l : one1 sc t k None -> all1 sc t (k :: l) None
  | a1_later sc t k l a : one1 sc t k (Some a) -> all1 sc t l None -> all1 sc t (k :: l) None
  with opt1 : scope -> option loc -> option bytes -> Prop :=
  | p1_none sc : opt1 sc None (Some [])
  | p1_some sc t r : renders1 sc t r -> opt1 sc (Some t) r
  with one1 : scope -> loc -> token -> option bytes -> Prop :=
  | o1_text sc t s : one1 sc t (TText s) (Some s)
  | o1_comment sc t s : one1 sc t (TComment s) (Some [])
  | o1_lang sc t s g v : lg = Some g -> l_entries g !! s = Some v -> one1 sc t (TLang s) (Some v)
  | o1_lang_missing sc t s : (forall g, lg = Some g -> l_entries g !! s = None) -> one1 sc t (TLang s) (Some [])
  | o1_var sc t s r : text1 sc s r -> one1 (Some sc) t (TVar s) r
  | o1_var_nodata t s : one1 None t (TVar s) (Some [])
  | o1_dump sc d t s out : s = B "dump" \/ s = B "list" -> dumps F ord h d out -> one1 (Some (sc ++ [Some d])) t (TDump s) (Some out)
  | o1_dump_other sc t s : s <> B "dump" -> s <> B "list" -> one1 sc t (TDump s) (Some [])
  | o1_dump_nodata t s : one1 None t (TDump s) (Some [])
  (* &&a:field:prefix&& *)
  | o1_select sc t s a field prefix v q r : separated ":"%char s a [field; prefix] -> text1 sc field (Some v) ->
      choose1 th t [prefix ++ v; prefix] q -> opt1 (Some sc) q r -> one1 (Some sc) t (TRef s) r
  | o1_select_panic sc t s a field prefix : separated ":"%char s a [field; prefix] -> text1 sc field None ->
      one1 (Some sc) t (TRef s) None
  | o1_select_nodata t s a field prefix : separated ":"%char s a [field; prefix] -> one1 None t (TRef s) None
  (* &&a:field&& *)
  | o1_narrow sc t s a field x d r : separated ":"%char s a [field] -> has th t a (Some x) ->
      found1 sc field (Some (Some (VRef d))) -> dataset_at h d -> renders1 (Some (Some d :: sc)) x r -> one1 (Some sc) t (TRef s) r
  | o1_keep sc t s a field x v r : separated ":"%char s a [field] -> has th t a (Some x) ->
      found1 sc field (Some v) -> (forall d, v = Some (VRef d) -> ~ dataset_at h d) -> renders1 (Some sc) x r -> one1 (Some sc) t (TRef s) r
  | o1_narrow_panic sc t s a field x : separated ":"%char s a [field] -> has th t a (Some x) -> found1 sc field None ->
      one1 (Some sc) t (TRef s) None
  | o1_narrow_nodata t s a field x : separated ":"%char s a [field] -> has th t a (Some x) -> one1 None t (TRef s) None
  (* &&a&&; more than three parts are as one *)
  | o1_ref sc t s a ws x r : separated ":"%char s a ws -> length ws <> 1%nat -> length ws <> 2%nat ->
      has th t a (Some x) -> renders1 sc x r -> one1 sc t (TRef s) r
  | o1_ref_unknown sc t s a ws : separated ":"%char s a ws -> length ws <> 2%nat -> has th t a None -> one1 sc t (TRef s) (Some [])
  (* @@d:b@@ *)
  | o1_range sc t s d b x c xs r : data_template s d b -> has th t b (Some x) -> found1 sc d (Some (Some (VRef c))) ->
      collection_at h c xs -> loops1 sc t b x 0 (length xs) xs r -> one1 (Some sc) t (TRange s) r
  | o1_range_none sc t s d b x q r : data_template s d b -> has th t b (Some x) -> found1 sc d (Some None) ->
      has th t (dotted b (B "none")) q -> renders1 (Some sc) (or_else q x) r -> one1 (Some sc) t (TRange s) r
  | o1_range_other sc t s d b x v : data_template s d b -> has th t b (Some x) -> found1 sc d (Some (Some v)) ->
      (forall c xs, v = VRef c -> ~ collection_at h c xs) -> one1 (Some sc) t (TRange s) None
  | o1_range_panic sc t s d b x : data_template s d b -> has th t b (Some x) -> found1 sc d None -> one1 (Some sc) t (TRange s) None
  | o1_range_unknown sc t s d b : data_template s d b -> has th t b None -> one1 sc t (TRange s) (Some [])
  | o1_range_nodata t s d b q : data_template s d b -> has th t b q -> one1 None t (TRange s) (Some [])
  (* ??d:b?? *)
  | o1_cond sc t s d b x v w q r : data_template s d b -> has th t b (Some x) -> found1 sc d (Some (Some v)) ->
      v <> VNil -> (forall l, v = VRef l -> ~ dataset_at h l) -> prints F ord h v w -> w <> [] -> has th t (dotted b w) q ->
      renders1 (Some sc) (or_else q x) r -> one1 (Some sc) t (TCond s) r
  | o1_cond_empty sc t s d b x v : data_template s d b -> has th t b (Some x) -> found1 sc d (Some (Some v)) ->
      v <> VNil -> (forall l, v = VRef l -> ~ dataset_at h l) -> prints F ord h v [] -> one1 (Some sc) t (TCond s) (Some [])
  | o1_cond_dataset sc t s d b x v : data_template s d b -> has th t b (Some x) -> found1 sc d (Some (Some (VRef v))) ->
      dataset_at h v -> one1 (Some sc) t (TCond s) (Some [])
  | o1_cond_missing sc t s d b q v : data_template s d b -> has th t b q -> found1 sc d (Some v) -> v = None \/ v = Some VNil ->
      one1 (Some sc) t (TCond s) (Some [])
  | o1_cond_unknown sc t s d b v : data_template s d b -> has th t b None -> found1 sc d (Some v) -> one1 (Some sc) t (TCond s) (Some [])
  | o1_cond_panic sc t s d b q : data_template s d b -> has th t b q -> found1 sc d None -> one1 (Some sc) t (TCond s) None
  | o1_cond_nodata t s d b q : data_template s d b -> has th t b q -> one1 None t (TCond s) (Some [])
  (* the elements from number i on of a collection of n *)
  with loops1 : list (option loc) -> loc -> bytes -> loc -> nat -> nat -> list (option loc) -> option bytes -> Prop :=
  | l1_end sc t b x i n : loops1 sc t b x i n [] (Some [])
  | l1_next sc t b x i n e es q o1 o2 : choose1 th t (element_names b i n) q -> renders1 (Some (e :: sc)) (or_else q x) (Some o1) ->
      loops1 sc t b x (S i) n es (Some o2) -> loops1 sc t b x i n (e :: es) (Some (o1 ++ o2))
  | l1_panic sc t b x i n e es q : choose1 th t (element_names b i n) q -> renders1 (Some (e :: sc)) (or_else q x) None ->
      loops1 sc t b x i n (e :: es) None
  | l1_later sc t b x i n e es q o1 : choose1 th t (element_names b i n) q -> renders1 (Some (e :: sc)) (or_else q x) (Some o1) ->
      loops1 sc t b x (S i) n es None -> loops1 sc t b x i n (e :: es) None.
End Meaning.
Scheme renders1_mind := Minimality for renders1 Sort Prop
  with all1_mind := Minimality for all1 Sort Prop
  with opt1_mind := Minimality for opt1 Sort Prop
  with one1_mind := Minimality for one1 Sort Prop
  with loops1_mind := Minimality for loops1 Sort Prop.
Combined Scheme renders1_mutind from renders1_mind, all1_mind, opt1_mind, one1_mind, loops1_mind.
(** Execute. *)
Definition executes1 F ord langs th h t (data : option loc) (r : option bytes) : Prop :=
  match data with
  | None => renders1 F ord h th None None t r
  | Some d => exists lg, language_of langs h d lg /\ renders1 F ord h th lg (Some [Some d]) t r
  end.
(** The templates that loading alone can make. *)
Inductive built1 : theap -> Prop :=
| k1_none : built1 ∅
| k1_new th data : built1 th -> built1 (new_template1 th data).1
| k1_load th t data : built1 th -> is_Some (th !! t) -> built1 (compile1 th t data).1.

(** ** Comparison with version 2 *)
(** The same templates, without fathers. *)
Definition same_but_fathers (th th1 : theap) : Prop :=
  forall t, th1 !! t = (fun T => Tmpl (t_name T) (t_root T) (t_subs T) None) <$> th !! t.
(** No template uses a box of its father: the names it looks up are its own, or unknown. *)
Definition own_names (th : theap) : Prop := forall t T l k n r, th !! t = Some T -> t_root T = Some (map stored l) -> k ∈ l ->
  may_call k n -> visible th t n r -> r = subs_of T !! n.
(** Neither loops nor conditions. *)
Definition straight (th : theap) : Prop := forall t T l s, th !! t = Some T -> t_root T = Some (map stored l) -> TRange s ∉ l /\ TCond s ∉ l.

(** ** Conditions *)
(** Missing, nil, a dataset, or a value whose text is empty. *)
Inductive no_text1 F ord (h : heap) : option value -> Prop :=
| nt_missing : no_text1 F ord h None
| nt_nil : no_text1 F ord h (Some VNil)
| nt_dataset d : dataset_at h d -> no_text1 F ord h (Some (VRef d))
| nt_empty v : v <> VNil -> (forall l, v = VRef l -> ~ dataset_at h l) -> prints F ord h v [] -> no_text1 F ord h (Some v).
