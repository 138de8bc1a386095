(** * The syntax of Go's package regexp, as far as xtemplate.go uses it.

    This models the library (regexp/syntax with the flags of regexp.MustCompile), not /repo:
    a text is read as a regular expression of Regex.v; [None]: a construct outside this
    fragment (or an error).  It ties the expression [meta] of TemplateModel.v to the text of
    the pattern in v2/xtemplate.go:136-156. *)
From Verif Require Import GoBase GoStrings Regex.

(** Syntax trees; groups carry their number. *)
Inductive ast :=
| ALit (c : ascii)
| AClass (l : list (ascii * ascii))     (* [a-bc...], as ranges *)
| ADot                                  (* . under the flag s *)
| ALazyStar (a : ast)                   (* a*? *)
| ALazyPlus (a : ast)                   (* a+? *)
| AMaybe (a : ast)                      (* a? *)
| AGroup (n : nat) (a : ast)
| ASeq (l : list ast)
| AOr (l : list ast).

Definition special (c : ascii) : bool := bool_decide (c ∈ B "\.+*?()|[]{}^$").
(** A character after a backslash: \n, \r; punctuation stands for itself. *)
Definition escaped (c : ascii) : option ascii :=
  let n := N_of_ascii c in
  if bool_decide (c = "n"%char) then Some lf
  else if bool_decide (c = "r"%char) then Some cr
  else if bool_decide ((48 <= n <= 57)%N \/ (65 <= n <= 90)%N \/ (97 <= n <= 122)%N \/ (128 <= n)%N) then None
  else Some c.
(** One character inside [...]. *)
Definition class_char (s : bytes) : option (ascii * bytes) :=
  match s with
  | c :: s' => if bool_decide (c = "\"%char) then
                 match s' with d :: s'' => match escaped d with Some e => Some (e, s'') | None => None end | [] => None end
               else Some (c, s')
  | [] => None
  end.
(** The ranges of a class up to the bracket; a minus sign makes a range when a character other
    than the bracket follows it. *)
Fixpoint class_items (n : nat) (s : bytes) : option (list (ascii * ascii) * bytes) :=
  match n with
  | O => None
  | S n' =>
      match s with
      | [] => None
      | c :: s' =>
          if bool_decide (c = "]"%char) then Some ([], s')
          else if bool_decide (c = "["%char) then None
          else match class_char s with
               | None => None
               | Some (lo, r) =>
                   let one := match class_items n' r with Some (l, q) => Some ((lo, lo) :: l, q) | None => None end in
                   match r with
                   | m :: x :: _ =>
                       if bool_decide (m = "-"%char /\ x <> "]"%char) then
                         match class_char (tail r) with
                         | Some (hi, r') =>
                             if bool_decide (N_of_ascii hi < N_of_ascii lo)%N then None
                             else match class_items n' r' with Some (l, q) => Some ((lo, hi) :: l, q) | None => None end
                         | None => None
                         end
                       else one
                   | _ => one
                   end
               end
      end
  end.

Section Parse.
  Context (alt : nat -> bytes -> option (ast * nat * bytes)).
  (** An atom; [g]: the number of the next group. *)
  Definition atom (g : nat) (s : bytes) : option (ast * nat * bytes) :=
    match s with
    | [] => None
    | c :: s' =>
        if bool_decide (c = "("%char) then
          if bool_decide (head s' = Some "?"%char) then None
          else match alt (S g) s' with
               | Some (a, g', x :: r) => if bool_decide (x = ")"%char) then Some (AGroup g a, g', r) else None
               | _ => None
               end
        else if bool_decide (c = "."%char) then Some (ADot, g, s')
        else if bool_decide (c = "["%char) then
          if bool_decide (head s' = Some "^"%char \/ head s' = Some "]"%char) then None
          else match class_items (S (length s')) s' with Some (l, r) => Some (AClass l, g, r) | None => None end
        else if bool_decide (c = "\"%char) then
          match s' with d :: r => match escaped d with Some e => Some (ALit e, g, r) | None => None end | [] => None end
        else if special c then None
        else Some (ALit c, g, s')
    end.
  (** The repetition operators; a lone [*] or [+] (greedy) and [??] are outside. *)
  Definition postfix (a : ast) (s : bytes) : option (ast * bytes) :=
    match s with
    | c :: s' =>
        if bool_decide (c = "?"%char) then
          if bool_decide (head s' ∈ [Some "?"; Some "*"; Some "+"]%char) then None else Some (AMaybe a, s')
        else if bool_decide (c = "*"%char) then
          match s' with d :: s'' => if bool_decide (d = "?"%char) then Some (ALazyStar a, s'') else None | [] => None end
        else if bool_decide (c = "+"%char) then
          match s' with d :: s'' => if bool_decide (d = "?"%char) then Some (ALazyPlus a, s'') else None | [] => None end
        else if bool_decide (c = "{"%char) then None
        else Some (a, s)
    | [] => Some (a, [])
    end.
  (** A sequence, up to [|], [)] or the end. *)
  Fixpoint seq (n : nat) (g : nat) (s : bytes) : option (list ast * nat * bytes) :=
    match n with
    | O => None
    | S n' =>
        if bool_decide (s = [] \/ head s = Some "|"%char \/ head s = Some ")"%char) then Some ([], g, s)
        else match atom g s with
             | Some (a, g1, r) =>
                 match postfix a r with
                 | Some (a', r') => match seq n' g1 r' with Some (l, g2, q) => Some (a' :: l, g2, q) | None => None end
                 | None => None
                 end
             | None => None
             end
    end.
  (** Alternatives. *)
  Fixpoint branches (n : nat) (g : nat) (s : bytes) : option (list ast * nat * bytes) :=
    match n with
    | O => None
    | S n' =>
        match seq (S (length s)) g s with
        | Some (l, g1, r) =>
            match r with
            | c :: r' => if bool_decide (c = "|"%char) then
                           match branches n' g1 r' with Some (bs, g2, q) => Some (ASeq l :: bs, g2, q) | None => None end
                         else Some ([ASeq l], g1, r)
            | [] => Some ([ASeq l], g1, [])
            end
        | None => None
        end
    end.
End Parse.
Fixpoint parse_alt (n : nat) (g : nat) (s : bytes) : option (ast * nat * bytes) :=
  match n with
  | O => None
  | S n' => match branches (parse_alt n') (S (length s)) g s with Some (bs, g', r) => Some (AOr bs, g', r) | None => None end
  end.
(** A whole pattern; it has to start with [(?s)]. *)
Definition parse (s : bytes) : option ast :=
  match s with
  | a :: b :: c :: d :: s' =>
      if bool_decide ([a; b; c; d] = B "(?s)") then
        match parse_alt (S (length s')) 1 s' with Some (t, _, []) => Some t | _ => None end
      else None
  | _ => None
  end.

(** The meaning of a tree; lazy repetition only of one character. *)
Definition in_class (l : list (ascii * ascii)) : ascii -> bool := fun x => existsb (fun r => between r.1 r.2 x) l.
Definition one_char (a : ast) : option (ascii -> bool) :=
  match a with ALit c => Some (is c) | AClass l => Some (in_class l) | ADot => Some (fun _ => true) | _ => None end.
Fixpoint denote (a : ast) : option re :=
  let all := fix all (l : list ast) : option (list re) :=
    match l with
    | [] => Some []
    | x :: l' => match denote x, all l' with Some r, Some rs => Some (r :: rs) | _, _ => None end
    end in
  match a with
  | ALit _ | AClass _ | ADot => match one_char a with Some p => Some (One p) | None => None end
  | ALazyStar x => match one_char x with Some p => Some (Lazy p) | None => None end
  | ALazyPlus x => match one_char x with Some p => Some (Cat (One p) (Lazy p)) | None => None end
  | AMaybe x => match denote x with Some r => Some (Opt r) | None => None end
  | AGroup n x => match denote x with Some r => Some (Group n r) | None => None end
  | ASeq l => match all l with Some rs => Some (fold_right Cat Eps rs) | None => None end
  | AOr l => match all l with Some (r :: rs) => Some (alts r rs) | _ => None end
  end.
Definition regexp_of (s : bytes) : option re := match parse s with Some a => denote a | None => None end.

(** The pattern, v2/xtemplate.go:136-156, concatenated as there. *)
Definition pattern : bytes :=
  B "(?s)" ++
  B "(%)--(.*?)--%(\n|\r|\r\n|\n\r)?" ++
  B "|(#)#([a-zA-Z0-9-_\.]+?)##" ++
  B "|(&)&([a-zA-Z0-9-_\=\>\:\|\.]+?)&&" ++
  B "|(@)@([a-zA-Z0-9-_\=\>\:\|\.]+?)@@" ++
  B "|(\?)\?([a-zA-Z0-9-_\=\>\:\|\.]+?)\?\?" ++
  B "|(\!)\!([a-zA-Z0-9-_\=\>\:\|\.]+?)\!\!" ++
  B "|(\{)\{([a-zA-Z0-9-_\=\>\:\|\.]+?)\}\}" ++
  B "|\[\[(\])\](\n|\r|\r\n|\n\r)?" ++
  B "|(\[)\[([a-z0-9\|\.\-_]+?)\]\](\n|\r|\r\n|\n\r)?".
