(** * The template of the root package (xtemplate.go, version 1).

    The types, the elements and their stored form are those of TemplateModel.v; version 1 has
    no Father ([t_father] stays None), no Clone, and only XDataset and XDatasetCollection as
    data.  What the root package writes as v2 does, line by line, is not written again
    ([element], [literal], [unused], [live], [talloc], [two_ids], [dot]).
    LoadFile (xtemplate.go:103-118) is [load_file] of FileModel.v with [compile1]. *)
From Verif Require Import GoBase GoStrings Regex RegexSyntax DatasetModel LangModel TemplateModel FileModel PrintModel.
Local Open Scope Z_scope.

(** ** The regular expression, xtemplate.go:128-146 *)
Definition pattern1 : bytes :=
  B "(?s)" ++
  B "(%)--(.*?)--%(\n|\r|\r\n|\n\r)?" ++
  B "|(#)#(.+?)##" ++
  B "|(&)&(.+?)&&" ++
  B "|(@)@(.+?)@@" ++
  B "|(\?)\?(.+?)\?\?" ++
  B "|(\!)\!(.+?)\!\!" ++
  B "|(\{)\{(.+?)\}\}" ++
  B "|\[\[(\])\](\n|\r|\r\n|\n\r)?" ++
  B "|(\[)\[([a-z0-9\|\.\-_]+?)\]\](\n|\r|\r\n|\n\r)?".
Definition any_char : ascii -> bool := fun _ => true.
Definition meta1 : re :=
  alts (cats [Group 1 (str (B "%")); str (B "--"); Group 2 (Lazy any_char); str (B "--%"); Opt (Group 3 newline)])
  [ cats [Group 4 (str (B "#")); str (B "#"); Group 5 (lazy_plus any_char); str (B "##")];
    cats [Group 6 (str (B "&")); str (B "&"); Group 7 (lazy_plus any_char); str (B "&&")];
    cats [Group 8 (str (B "@")); str (B "@"); Group 9 (lazy_plus any_char); str (B "@@")];
    cats [Group 10 (str (B "?")); str (B "?"); Group 11 (lazy_plus any_char); str (B "??")];
    cats [Group 12 (str (B "!")); str (B "!"); Group 13 (lazy_plus any_char); str (B "!!")];
    cats [Group 14 (str (B "{")); str (B "{"); Group 15 (lazy_plus any_char); str (B "}}")];
    cats [str (B "[["); Group 16 (str (B "]")); str (B "]"); Opt (Group 17 newline)];
    cats [Group 18 (str (B "[")); str (B "["); Group 19 (lazy_plus box_char); str (B "]]"); Opt (Group 20 newline)] ].
(** xtemplate.go:152-195, first pass. *)
Definition first_pass1 (data : bytes) : list param :=
  let '(l, tail) := find_all (S (length data)) meta1 data in
  flat_map (fun pm => literal pm.1 ++ [element pm.2]) l ++ literal tail.

(** ** Second pass *)
(** xtemplate.go:268-273 [AddTemplate]. *)
Definition add_template1 (th : theap) (t : loc) (name : bytes) (tm : loc) : theap :=
  match th !! t with
  | Some T =>
      let subs := match t_subs T with Some m => m | None => ∅ end in       (* 269-271 *)
      alter (fun X => Tmpl (t_name X) (t_root X) (Some (<[name := tm]> subs)) (t_father X)) t th
  | None => th
  end.
(** xtemplate.go:227-238: registration under each name. *)
Definition register1 (th : theap) (up : loc) (name : bytes) (tm : loc) : theap :=
  if bool_decide ("|"%char ∈ name) then
    fold_left (fun th v => match v with [] => th | _ => add_template1 th up v tm end) (split_on "|"%char name) th
  else add_template1 th up name tm.
(** xtemplate.go:201-246, one iteration. *)
Definition second_step1 (i : nat) (s : cstate) : option cstate :=
  match s_compiled s !! i with
  | None => Some s
  | Some x =>
      if bool_decide (p_type x = MStart) then                                (* 202-205 *)
        let '(th1, a) := talloc (s_heap s) (Tmpl (p_data x) None None None) in
        Some (CState (i :: s_starts s) (s_actual s :: s_uppers s) a (s_compiled s) th1)
      else if bool_decide (p_type x = MEnd) then                             (* 206-245 *)
        match s_starts s, s_uppers s with
        | sp :: starts, up :: uppers =>
            let c := s_compiled s in
            let inner := take (i - S sp) (drop (S sp) c) in                  (* 215-221 *)
            let subset := filter (fun p => live p = true) inner in
            let c1 := take sp c ++ map unused (take (i - sp) (drop sp c)) ++ unused x :: drop (S i) c in
            let th1 := alter (fun T => Tmpl (t_name T) (Some subset) (t_subs T) (t_father T)) (s_actual s) (s_heap s) in
            let name := match s_heap s !! s_actual s with Some T => t_name T | None => [] end in
            let th2 := register1 th1 up name (s_actual s) in
            Some (CState starts uppers up c1 th2)
        | _, _ => None                                                       (* 209-211 *)
        end
      else Some s
  end.
Fixpoint second_pass1 (k : nat) (i : nat) (s : cstate) : cstate * bool :=
  match k with
  | O => (s, true)
  | S k' => match second_step1 i s with
            | None => (s, false)
            | Some s' => second_pass1 k' (S i) s'
            end
  end.
(** xtemplate.go:126-265 [compile], 121-123 [LoadString]; [false]: an error. *)
Definition compile1 (th : theap) (t : loc) (data : bytes) : theap * bool :=
  let compiled := first_pass1 data in
  let '(s, ok) := second_pass1 (length compiled) 0 (CState [] [] t compiled th) in
  if ok then
    match s_starts s with
    | [] => let root := filter (fun p => live p = true) (s_compiled s) in    (* 251-263 *)
            (alter (fun T => Tmpl (t_name T) (Some root) (t_subs T) (t_father T)) t (s_heap s), true)
    | _ => (s_heap s, false)
    end
  else (s_heap s, false).
(** xtemplate.go:94-101 [NewXTemplateFromString]; [None]: nil and an error. *)
Definition new_template1 (th : theap) (data : bytes) : theap * option loc :=
  let '(th1, t) := talloc th empty_tmpl in
  let '(th2, ok) := compile1 th1 t data in (th2, if ok then Some t else None).
(** xtemplate.go:276-281 [GetTemplate]. *)
Definition get_template1 (th : theap) (t : loc) (name : bytes) : outcome (option loc) :=
  match th !! t with
  | None => Panic
  | Some T => Ok (t_subs T ≫= (fun m => m !! name))
  end.

(** ** Execution.  Nothing in [injector] stores into the data: the data heap [h] is fixed.
    The stack may hold nil (an element of a collection). *)
Section Execute1.
  Context (F : golib) (ord : heap -> gmap bytes value -> list (bytes * value)) (langs : nat -> option lang).
  Context (th : theap) (h : heap).
  Notation stack := (option (list (option loc))).
  (** Methods of XDatasetCollection used on the stack (xdataset.go:479-524, 567-574). *)
  Definition stack_data1 (n : nat) (xs : list (option loc)) (key : bytes) : outcome (option value) := search n h (reverse xs) key.
  Definition stack_string1 (n : nat) (xs : list (option loc)) (key : bytes) : outcome bytes :=
    r <-! stack_data1 n xs key;
    match r with
    | None | Some VNil => Ok []
    | Some v => sprint F ord n h v
    end.
  Definition stack_collection1 (n : nat) (xs : list (option loc)) (key : bytes) : outcome (option loc) :=
    r <-! stack_data1 n xs key;
    match r with
    | None => Ok None
    | Some v => match as_collection h v with Some c => Ok (Some c) | None => Panic end
    end.
  Definition non_nil1 {A} (sc : stack) (f : list (option loc) -> outcome A) : outcome A :=
    match sc with Some xs => f xs | None => Panic end.
  Definition spush1 (sc : stack) (d : option loc) : outcome stack := non_nil1 sc (fun xs => Ok (Some (xs ++ [d]))).
  Definition spop1 (sc : stack) : outcome stack :=
    non_nil1 sc (fun xs => match reverse xs with _ :: r => Ok (Some (reverse r)) | [] => Panic end).

  Section Body.
    Context (n : nat) (lg : option lang).
    (** Recursive calls of [injector]: stack, template. *)
    Context (inj : stack -> loc -> outcome (stack * bytes)).
    Definition run_on1 (st : stack) (t : loc) : outcome (stack * list bytes) :=
      '(st1, out) <-! inj st t; Ok (st1, [out]).
    Definition run_opt1 (st : stack) (t : option loc) : outcome (stack * list bytes) :=
      match t with Some t' => run_on1 st t' | None => Ok (st, []) end.
    (** Push, run, Pop. *)
    Definition run_in1 (st : stack) (d : option loc) (t : loc) : outcome (stack * list bytes) :=
      sc1 <-! spush1 st d; '(st2, out) <-! inj sc1 t; sc3 <-! spop1 st2; Ok (sc3, [out]).
    Fixpoint try_names1 (t : loc) (names : list bytes) : outcome (option loc) :=
      match names with
      | [] => Ok None
      | x :: names' => r <-! get_template1 th t x;
                       match r with Some y => Ok (Some y) | None => try_names1 t names' end
      end.
    (** xtemplate.go:315-354, case MetaReference. *)
    Definition do_reference1 (st : stack) (t : loc) (xid : list bytes) : outcome (stack * list bytes) :=
      match xid with
      | [_; field; prefix] =>
          v <-! non_nil1 st (fun xs => stack_string1 n xs field);
          r <-! try_names1 t [prefix ++ v; prefix];
          run_opt1 st r
      | _ =>
          let template := match xid with x :: _ => x | [] => [] end in
          r <-! get_template1 th t template;
          match r with
          | None => Ok (st, [])
          | Some subt =>
              match xid with
              | [_; field] =>
                  v <-! non_nil1 st (fun xs => stack_data1 n xs field);
                  match v ≫= as_dataset h with
                  | Some d => run_in1 st (Some d) subt
                  | None => run_on1 st subt
                  end
              | _ => run_on1 st subt
              end
          end
      end.
    (** xtemplate.go:373-397, the loop; one unit of [k] per iteration. *)
    Fixpoint do_loop1 (k : nat) (i : Z) (st : stack) (t : loc) (subid : bytes) (subt cl : loc) : outcome (stack * list bytes) :=
      match k with
      | O => NoFuel
      | S k' =>
          c <-! ccount h cl;
          if bool_decide (i < c) then
            r <-! try_names1 t ([dot subid (B "key." ++ itoa i)] ++
                               (if bool_decide (i = 0) then [dot subid (B "first")] else []) ++
                               (if bool_decide (i = c - 1) then [dot subid (B "last")] else []) ++
                               (if bool_decide (Z.rem i 2 = 0) then [dot subid (B "even")] else []));
            let tmp := match r with Some x => x | None => subt end in
            e <-! cget h cl i;
            '(st2, out) <-! run_in1 st (match e with Some d => d | None => None end) tmp;
            '(st4, outs) <-! do_loop1 k' (i + 1) st2 t subid subt cl;
            Ok (st4, out ++ outs)
          else Ok (st, [])
      end.
    (** xtemplate.go:360-408, case MetaRange. *)
    Definition do_range1 (st : stack) (t : loc) (data : bytes) : outcome (stack * list bytes) :=
      let '(subdata, subid) := two_ids data in
      r <-! get_template1 th t subid;
      match r, st with
      | Some subt, Some xs =>
          cl <-! stack_collection1 n xs subdata;
          match cl with
          | Some l => do_loop1 n 0 st t subid subt l
          | None => tmp <-! try_names1 t [dot subid (B "none")];
                    run_on1 st (match tmp with Some x => x | None => subt end)
          end
      | _, _ => Ok (st, [])
      end.
    (** xtemplate.go:409-444, case MetaCondition. *)
    Definition do_condition1 (st : stack) (t : loc) (data : bytes) : outcome (stack * list bytes) :=
      let '(subdata, subid) := two_ids data in
      subt <-! get_template1 th t subid;
      value <-! match st with
                | Some xs => r <-! stack_data1 n xs subdata; Ok (match r with Some v => v | None => VNil end)
                | None => Ok VNil
                end;
      match subt with
      | Some s =>
          if is_nil value then Ok (st, [])
          else
            match as_dataset h value with
            | Some d => sc1 <-! spush1 st (Some d); sc3 <-! spop1 sc1; Ok (sc3, [])   (* svalue is "" *)
            | None =>
                svalue <-! sprint F ord n h value;
                match svalue with
                | [] => Ok (st, [])
                | _ => tmp <-! get_template1 th t (dot subid svalue);
                       run_on1 st (match tmp with Some x => x | None => s end)
                end
            end
      | None => Ok (st, [])
      end.
    (** xtemplate.go:305-458, the switch. *)
    Definition do_param1 (st : stack) (t : loc) (p : param) : outcome (stack * list bytes) :=
      let v := p_data p in
      if bool_decide (p_type p = MString) then Ok (st, [v])
      else if bool_decide (p_type p = MComment) then Ok (st, [])
      else if bool_decide (p_type p = MLanguage) then
        Ok (st, match lg with Some l => [lget l v] | None => [] end)
      else if bool_decide (p_type p = MReference) then do_reference1 st t (split_on ":"%char v)
      else if bool_decide (p_type p = MVariable) then                                       (* 355-359 *)
        match st with
        | Some xs => d <-! stack_string1 n xs v; Ok (st, [d])
        | None => Ok (st, [])
        end
      else if bool_decide (p_type p = MRange) then do_range1 st t v
      else if bool_decide (p_type p = MCondition) then do_condition1 st t v
      else if bool_decide (p_type p = MDump) then                                           (* 445-454 *)
        match st with
        | Some (Some d :: _) => if bool_decide (v = B "dump" \/ v = B "list")
                                then s <-! show F ord n h true d; Ok (st, [s]) else Ok (st, [])
        | _ => Ok (st, [])
        end
      else Ok (st, [B "THE METALANGUAGE FROM OUTERSPACE IS NOT SUPPORTED: " ++ itoa (p_type p)]).
    Fixpoint do_params1 (st : stack) (t : loc) (ps : list param) : outcome (stack * list bytes) :=
      match ps with
      | [] => Ok (st, [])
      | p :: ps' => '(st1, a) <-! do_param1 st t p; '(st2, b) <-! do_params1 st1 t ps'; Ok (st2, a ++ b)
      end.
  End Body.
  (** xtemplate.go:300-461 [injector]; one unit of fuel per nested call. *)
  Fixpoint injector1 (n : nat) (lg : option lang) (st : stack) (t : loc) : outcome (stack * bytes) :=
    match n with
    | O => NoFuel
    | S n' =>
        match th !! t with
        | None => Panic
        | Some T =>
            match t_root T with
            | None => Ok (st, B "Error, no template.Root compiled")
            | Some ps => '(st1, outs) <-! do_params1 n' lg (injector1 n' lg) st t ps; Ok (st1, concat outs)
            end
        end
    end.
  (** xtemplate.go:284-297 [Execute]. *)
  Definition execute1 (n : nat) (t : loc) (data : option loc) : outcome bytes :=
    match data with
    | None => '(st, out) <-! injector1 n None None t; Ok out
    | Some d =>
        r <-! dget n h d (B "#");
        let lg := match r with Some (VOther k) => langs k | _ => None end in
        '(st, out) <-! injector1 n lg (Some [Some d]) t; Ok out
    end.
End Execute1.

(** xtemplate.go:464-476 [String], [GoString]: the same text; a nil Root panics. *)
Definition tmpl_string1 (T : tmpl) : outcome bytes :=
  match t_root T with
  | None => Panic
  | Some ps => Ok (B "xcore.XLanguage{" ++ join (B " ") (sort_strings (map param_text ps)) ++ B "}")
  end.
