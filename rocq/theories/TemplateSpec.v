(** * Specification of the template language, independent of the functions of TemplateModel.v
    (only its types of templates, parameters and heaps are used). *)
From Verif Require Import GoBase DatasetModel LangModel DatasetSpec TemplateModel.
Local Open Scope Z_scope.

(** ** Words of the language *)
Inductive token :=
| TText (s : bytes)            (* literal text *)
| TComment (s : bytes)         (* %--s--% *)
| TLang (s : bytes)            (* ##s## *)
| TRef (s : bytes)             (* &&s&& *)
| TRange (s : bytes)           (* @@s@@ *)
| TCond (s : bytes)            (* ??s?? *)
| TDump (s : bytes)            (* !!s!! *)
| TVar (s : bytes)             (* {{s}} *)
| TOpen (s : bytes)            (* [[s]] *)
| TClose.                      (* [[]] *)
(** How the compiler stores them: the constants of v2/xtemplate.go:45-60. *)
Definition stored (t : token) : param :=
  match t with
  | TText s => Param 0 s | TComment s => Param 1 s | TLang s => Param 2 s | TRef s => Param 3 s
  | TRange s => Param 4 s | TCond s => Param 5 s | TDump s => Param 6 s | TVar s => Param 7 s
  | TOpen s => Param 101 s | TClose => Param 102 []
  end.

(** Characters of names. *)
Definition code (c : ascii) : N := N_of_ascii c.
Definition lower_or_digit (c : ascii) : Prop := (97 <= code c <= 122)%N \/ (48 <= code c <= 57)%N.
Definition upper (c : ascii) : Prop := (65 <= code c <= 90)%N.
Definition entry_char (c : ascii) : Prop := lower_or_digit c \/ upper c \/ c ∈ B "-_.".
Definition field_char (c : ascii) : Prop := entry_char c \/ c ∈ B "=>:|".
Definition name_char (c : ascii) : Prop := lower_or_digit c \/ c ∈ B "-_.|".

(** The end of line that a comment or a box mark takes with it: one character. *)
Inductive line_end : bytes -> bytes -> Prop :=
| le_lf r : line_end (ascii_of_nat 10 :: r) r
| le_cr r : line_end (ascii_of_nat 13 :: r) r
| le_none s : (forall c r, s = c :: r -> c <> ascii_of_nat 10 /\ c <> ascii_of_nat 13) -> line_end s s.
(** [starts s t r]: [s] starts with the element [t] and continues with [r]. *)
Inductive starts : bytes -> token -> bytes -> Prop :=
| st_comment body s r : (forall a b, body <> a ++ B "--%" ++ b) -> line_end s r ->
    starts (B "%--" ++ body ++ B "--%" ++ s) (TComment body) r
| st_lang w r : w <> [] -> Forall entry_char w -> starts (B "##" ++ w ++ B "##" ++ r) (TLang w) r
| st_ref w r : w <> [] -> Forall field_char w -> starts (B "&&" ++ w ++ B "&&" ++ r) (TRef w) r
| st_range w r : w <> [] -> Forall field_char w -> starts (B "@@" ++ w ++ B "@@" ++ r) (TRange w) r
| st_cond w r : w <> [] -> Forall field_char w -> starts (B "??" ++ w ++ B "??" ++ r) (TCond w) r
| st_dump w r : w <> [] -> Forall field_char w -> starts (B "!!" ++ w ++ B "!!" ++ r) (TDump w) r
| st_var w r : w <> [] -> Forall field_char w -> starts (B "{{" ++ w ++ B "}}" ++ r) (TVar w) r
| st_open w s r : w <> [] -> Forall name_char w -> line_end s r -> starts (B "[[" ++ w ++ B "]]" ++ s) (TOpen w) r
| st_close s r : line_end s r -> starts (B "[[]]" ++ s) TClose r.
Definition element_here (s : bytes) : Prop := exists t r, starts s t r.
(** [reads s l]: the text [s] consists of the words [l]; an element is recognised at the
    earliest place where one starts, what is in between is literal text. *)
Inductive reads : bytes -> list token -> Prop :=
| reads_end : reads [] []
| reads_element s t r l : starts s t r -> reads r l -> reads s (t :: l)
| reads_text a s l : a <> [] -> (forall x y, a = x ++ y -> y <> [] -> ~ element_here (y ++ s)) ->
    (s = [] \/ element_here s) -> reads s l -> reads (a ++ s) (TText a :: l).

(** ** Boxes *)
(** Every [[id]] is closed, no [[]] without an open [[id]]; [d] boxes are open. *)
Fixpoint balanced (d : nat) (l : list token) : Prop :=
  match l with
  | [] => d = 0%nat
  | TOpen _ :: l' => balanced (S d) l'
  | TClose :: l' => match d with O => False | S d' => balanced d' l' end
  | _ :: l' => balanced d l'
  end.
(** The tree of the boxes of a template; [x] is the template object made for a box. *)
Inductive item := Leaf (t : token) | Box (x : loc) (name : bytes) (body : list item).
Inductive layout : list item -> list token -> Prop :=
| lay_nil : layout [] []
| lay_leaf t is l : (forall n, t <> TOpen n) -> t <> TClose -> layout is l -> layout (Leaf t :: is) (t :: l)
| lay_box x name body is l1 l2 : layout body l1 -> layout is l2 ->
    layout (Box x name body :: is) (TOpen name :: l1 ++ TClose :: l2).
Definition leaves (is : list item) : list token := flat_map (fun i => match i with Leaf t => [t] | Box _ _ _ => [] end) is.
Fixpoint box_locs (i : item) : list loc :=
  match i with Leaf _ => [] | Box x _ body => x :: flat_map box_locs body end.
(** [part nm n]: [n] is one of the non empty names that [nm] lists, separated by |. *)
Definition part (nm n : bytes) : Prop :=
  n <> [] /\ "|"%char ∉ n /\
  exists a b, nm = a ++ n ++ b /\ (a = [] \/ exists a', a = a' ++ B "|") /\ (b = [] \/ exists b', b = B "|" ++ b').
(** [x] is the last box of [is] that has the name [n]. *)
Definition defines (is : list item) (n : bytes) (x : loc) : Prop :=
  exists a nm body b, is = a ++ Box x nm body :: b /\ part nm n /\
    forall x' nm' body', Box x' nm' body' ∈ b -> ~ part nm' n.
(** [m] registers the boxes of [is] under their names, over what [old] registers. *)
Definition registers (old : gmap bytes loc) (is : list item) (m : option (gmap bytes loc)) : Prop :=
  forall n, (forall x, defines is n x -> (m ≫= lookup n) = Some x) /\
            ((forall x, ~ defines is n x) -> (m ≫= lookup n) = old !! n).
(** The template objects of the boxes, down to the leaves; [t] is the enclosing template. *)
Inductive box_ok (th : theap) (t : loc) : item -> Prop :=
| bo_leaf k : box_ok th t (Leaf k)
| bo_box x nm body X : th !! x = Some X -> t_name X = nm -> t_root X = Some (map stored (leaves body)) ->
    registers ∅ body (t_subs X) -> ((exists n, part nm n) -> t_father X = Some t) ->
    (forall i, i ∈ body -> box_ok th x i) -> box_ok th t (Box x nm body).
(** The text with the boxes [is] is loaded in [t], whose sub templates were [old] before. *)
Definition loaded (th : theap) (old : gmap bytes loc) (t : loc) (is : list item) : Prop :=
  exists T, th !! t = Some T /\ t_root T = Some (map stored (leaves is)) /\ registers old is (t_subs T) /\
    forall i, i ∈ is -> box_ok th t i.
Definition subs_of (T : tmpl) : gmap bytes loc := match t_subs T with Some m => m | None => ∅ end.

(** ** Looking up a template by name: the nearest enclosing template that registers it *)
Inductive visible (th : theap) : loc -> bytes -> option loc -> Prop :=
| vis_here t T n x : th !! t = Some T -> subs_of T !! n = Some x -> visible th t n (Some x)
| vis_up t T n f r : th !! t = Some T -> subs_of T !! n = None -> t_father T = Some f -> visible th f n r -> visible th t n r
| vis_none t T n : th !! t = Some T -> subs_of T !! n = None -> t_father T = None -> visible th t n None.

(** ** Spelling: the source text of a word (boxes and comments may swallow a line end) *)
Definition breaks (s : bytes) : Prop := s = [] \/ s = [ascii_of_nat 10] \/ s = [ascii_of_nat 13].
Inductive spelled : token -> bytes -> Prop :=
| sp_text s : s <> [] -> spelled (TText s) s
| sp_comment s e : breaks e -> spelled (TComment s) (B "%--" ++ s ++ B "--%" ++ e)
| sp_lang s : spelled (TLang s) (B "##" ++ s ++ B "##")
| sp_ref s : spelled (TRef s) (B "&&" ++ s ++ B "&&")
| sp_range s : spelled (TRange s) (B "@@" ++ s ++ B "@@")
| sp_cond s : spelled (TCond s) (B "??" ++ s ++ B "??")
| sp_dump s : spelled (TDump s) (B "!!" ++ s ++ B "!!")
| sp_var s : spelled (TVar s) (B "{{" ++ s ++ B "}}")
| sp_open s e : breaks e -> spelled (TOpen s) (B "[[" ++ s ++ B "]]" ++ e)
| sp_close e : breaks e -> spelled TClose (B "[[]]" ++ e).
(** None of the marks that open an element. *)
Definition no_mark (s : bytes) : Prop :=
  forall a b m, m ∈ [B "%--"; B "##"; B "&&"; B "@@"; B "??"; B "!!"; B "{{"; B "[["] -> s <> a ++ m ++ b.
(** The templates without their comments. *)
Definition without_comments (T : tmpl) : tmpl :=
  Tmpl (t_name T) (List.filter (fun p => negb (p_type p =? 1)) <$> t_root T) (t_subs T) (t_father T).
(** No unfinished comment among the literal texts. *)
Definition no_open_comment (l : list token) : Prop := forall s, TText s ∈ l -> forall x y, s <> x ++ B "%--" ++ y.
(** The father relation of a heap of templates. *)
Definition fathered (th : theap) (x y : loc) : Prop := exists X, th !! x = Some X /\ t_father X = Some y.
(** From [t] outwards there is always a further father and none of them registers [name]. *)
Definition no_end (th : theap) (t : loc) (name : bytes) : Prop :=
  forall x, rtc (fathered th) t x -> exists X f, th !! x = Some X /\ subs_of X !! name = None /\ t_father X = Some f.
