(** * Regular expressions of Go's package regexp, as far as xtemplate.go uses them.

    This models the library (trusted), not /repo: the leftmost-first (Perl) semantics that
    regexp.MustCompile gives.  [matches r s] lists the ways [r] can match a prefix of [s] in
    the order of preference of a backtracking matcher; the match chosen at a position is the
    first of the list.  Go matches runes, the model bytes: the two agree for the expression of
    xtemplate.go, whose classes only contain ASCII characters and whose [.] (flag s) accepts
    every rune, valid or not. *)
From Verif Require Import GoBase GoStrings.

Inductive re :=
| Eps
| One (p : ascii -> bool)          (* one character of a class *)
| Cat (a b : re)
| Alt (a b : re)                   (* a|b, prefers a *)
| Lazy (p : ascii -> bool)         (* [p]*?, prefers fewer *)
| Opt (a : re)                     (* (a)?, prefers a *)
| Group (n : nat) (a : re).        (* capturing group *)

(** Text matched, groups set so far (latest first), rest of the input. *)
Record mtch := Mtch { m_text : bytes; m_groups : list (nat * bytes); m_rest : bytes }.

Fixpoint lazy_matches (p : ascii -> bool) (s : bytes) : list mtch :=
  Mtch [] [] s ::
  match s with
  | c :: s' => if p c then map (fun m => Mtch (c :: m_text m) [] (m_rest m)) (lazy_matches p s') else []
  | [] => []
  end.
Fixpoint matches (r : re) (s : bytes) : list mtch :=
  match r with
  | Eps => [Mtch [] [] s]
  | One p => match s with c :: s' => if p c then [Mtch [c] [] s'] else [] | [] => [] end
  | Cat a b =>
      flat_map (fun m => map (fun m' => Mtch (m_text m ++ m_text m') (m_groups m' ++ m_groups m) (m_rest m'))
                             (matches b (m_rest m))) (matches a s)
  | Alt a b => matches a s ++ matches b s
  | Lazy p => lazy_matches p s
  | Opt a => matches a s ++ [Mtch [] [] s]
  | Group n a => map (fun m => Mtch (m_text m) ((n, m_text m) :: m_groups m) (m_rest m)) (matches a s)
  end.
(** The text of group [n] in the result of FindAllStringSubmatch: "" when not set. *)
Fixpoint group (n : nat) (gs : list (nat * bytes)) : bytes :=
  match gs with [] => [] | (k, w) :: gs' => if Nat.eqb n k then w else group n gs' end.

(** The leftmost match: the text before it and the match. *)
Fixpoint find_first (r : re) (s : bytes) : option (bytes * mtch) :=
  match matches r s with
  | m :: _ => Some ([], m)
  | [] => match s with
          | [] => None
          | c :: s' => match find_first r s' with Some (pre, m) => Some (c :: pre, m) | None => None end
          end
  end.
(** FindAll: the non overlapping matches, each with the unmatched text before it, and the
    text after the last one.  The expression of xtemplate.go never matches the empty text, so
    the special treatment of empty matches is left out. *)
Fixpoint find_all (n : nat) (r : re) (s : bytes) : list (bytes * mtch) * bytes :=
  match n with
  | O => ([], s)
  | S n' => match find_first r s with
            | None => ([], s)
            | Some (pre, m) => let '(l, tail) := find_all n' r (m_rest m) in ((pre, m) :: l, tail)
            end
  end.

(** ** Notation of the expression *)
Definition is (c : ascii) : ascii -> bool := fun x => bool_decide (x = c).
Definition chr (c : ascii) : re := One (is c).
Fixpoint str (s : bytes) : re := match s with [] => Eps | [c] => chr c | c :: s' => Cat (chr c) (str s') end.
Fixpoint cats (l : list re) : re := match l with [] => Eps | [r] => r | r :: l' => Cat r (cats l') end.
Fixpoint alts (r : re) (l : list re) : re := match l with [] => r | r' :: l' => Alt r (alts r' l') end.
Definition between (a b : ascii) : ascii -> bool :=
  fun x => bool_decide (N_of_ascii a <= N_of_ascii x <= N_of_ascii b)%N.
Definition one_of (s : bytes) : ascii -> bool := fun x => bool_decide (x ∈ s).
Definition any_of (l : list (ascii -> bool)) : ascii -> bool := fun x => existsb (fun p => p x) l.
Definition lazy_plus (p : ascii -> bool) : re := Cat (One p) (Lazy p).
