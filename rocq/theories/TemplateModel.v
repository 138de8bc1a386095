(** * XTemplate (v2/xtemplate.go): compilation, lookup, execution, cloning.

    Templates are heap objects ([theap]); the data heap is that of DatasetModel.v.  The stack
    of data of [Execute] is a collection that nobody else can reach: it is a list carried
    along, innermost dataset last.  Languages are opaque values of the data heap; [langs] says
    which of them are *XLanguage and what they contain.  LoadFile is in FileModel.v, String
    and GoString in PrintModel.v.  Not modelled: typed nil pointers, values of Root or SubTemplates built by hand with nil templates. *)
From Verif Require Import GoBase GoStrings Regex DatasetModel LangModel.
Local Open Scope Z_scope.

(** v2/xtemplate.go:45-60, the types of elements. *)
Definition MString := 0.
Definition MComment := 1.
Definition MLanguage := 2.
Definition MReference := 3.
Definition MRange := 4.
Definition MCondition := 5.
Definition MDump := 6.
Definition MVariable := 7.
Definition MStart := 101.
Definition MEnd := 102.
Definition MUnused := -1.

(** v2/xtemplate.go:63-67 [XTemplateParam]. *)
Record param := Param { p_type : Z; p_data : bytes }.
(** v2/xtemplate.go:78-84 [XTemplate]. *)
Record tmpl := Tmpl {
  t_name : bytes;
  t_root : option (list param);            (* Root, None: nil *)
  t_subs : option (gmap bytes loc);        (* SubTemplates, None: nil *)
  t_father : option loc
}.
Notation theap := (gmap loc tmpl).

(** ** The regular expression, v2/xtemplate.go:136-156 *)
Definition word : ascii -> bool := any_of [between "a" "z"; between "A" "Z"; between "0" "9"; one_of (B "-_.")].
Definition path_char : ascii -> bool := any_of [word; one_of (B "=>:|")].
Definition box_char : ascii -> bool := any_of [between "a" "z"; between "0" "9"; one_of (B "|.-_")].
Definition newline : re := alts (str [lf]) [str [cr]; str [cr; lf]; str [lf; cr]].
Definition meta : re :=
  alts (cats [Group 1 (str (B "%")); str (B "--"); Group 2 (Lazy (fun _ => true)); str (B "--%"); Opt (Group 3 newline)])
  [ cats [Group 4 (str (B "#")); str (B "#"); Group 5 (lazy_plus word); str (B "##")];
    cats [Group 6 (str (B "&")); str (B "&"); Group 7 (lazy_plus path_char); str (B "&&")];
    cats [Group 8 (str (B "@")); str (B "@"); Group 9 (lazy_plus path_char); str (B "@@")];
    cats [Group 10 (str (B "?")); str (B "?"); Group 11 (lazy_plus path_char); str (B "??")];
    cats [Group 12 (str (B "!")); str (B "!"); Group 13 (lazy_plus path_char); str (B "!!")];
    cats [Group 14 (str (B "{")); str (B "{"); Group 15 (lazy_plus path_char); str (B "}}")];
    cats [str (B "[["); Group 16 (str (B "]")); str (B "]"); Opt (Group 17 newline)];
    cats [Group 18 (str (B "[")); str (B "["); Group 19 (lazy_plus box_char); str (B "]]"); Opt (Group 20 newline)] ].

(** v2/xtemplate.go:167-197: the element of a match. *)
Definition element (m : mtch) : param :=
  let g n := group n (m_groups m) in
  let isg n s := bool_decide (g n = B s) in
  if isg 1%nat "%" then Param MComment (g 2%nat)
  else if isg 4%nat "#" then Param MLanguage (g 5%nat)
  else if isg 6%nat "&" then Param MReference (g 7%nat)
  else if isg 8%nat "@" then Param MRange (g 9%nat)
  else if isg 10%nat "?" then Param MCondition (g 11%nat)
  else if isg 12%nat "!" then Param MDump (g 13%nat)
  else if isg 14%nat "{" then Param MVariable (g 15%nat)
  else if isg 18%nat "[" then Param MStart (g 19%nat)
  else if isg 16%nat "]" then Param MEnd []
  else Param MUnused [].
(** v2/xtemplate.go:157-203, first pass: literal texts and elements. *)
Definition literal (s : bytes) : list param := match s with [] => [] | _ => [Param MString s] end.
Definition first_pass (data : bytes) : list param :=
  let '(l, tail) := find_all (S (length data)) meta data in
  flat_map (fun pm => literal pm.1 ++ [element pm.2]) l ++ literal tail.

(** ** Second pass *)
(** v2/xtemplate.go:276-282 [AddTemplate]. *)
Definition add_template (th : theap) (t : loc) (name : bytes) (tm : loc) : theap :=
  match th !! t with
  | Some T =>
      let subs := match t_subs T with Some m => m | None => ∅ end in       (* 277-279 *)
      let th1 := alter (fun X => Tmpl (t_name X) (t_root X) (t_subs X) (Some t)) tm th in
      alter (fun X => Tmpl (t_name X) (t_root X) (Some (<[name := tm]> subs)) (t_father X)) t th1
  | None => th
  end.
(** v2/xtemplate.go:235-246: registration under each name. *)
Definition register (th : theap) (up : loc) (name : bytes) (tm : loc) : theap :=
  if bool_decide ("|"%char ∈ name) then
    fold_left (fun th v => match v with [] => th | _ => add_template th up v tm end) (split_on "|"%char name) th
  else add_template th up name tm.

Definition unused (p : param) : param := Param MUnused (p_data p).
Definition live (p : param) : bool := bool_decide (p_type p <> MUnused).
Definition talloc (th : theap) (T : tmpl) : theap * loc := let l := fresh (dom th) in (<[l := T]> th, l).

(** State of the loop 206-254: [startpointers], [subtemplates] (top of the stacks first),
    [actualtemplate], [compiled] and the templates. *)
Record cstate := CState { s_starts : list nat; s_uppers : list loc; s_actual : loc; s_compiled : list param; s_heap : theap }.

Definition second_step (i : nat) (s : cstate) : option cstate :=
  match s_compiled s !! i with
  | None => Some s
  | Some x =>
      if bool_decide (p_type x = MStart) then                                (* 210-213 *)
        let '(th1, a) := talloc (s_heap s) (Tmpl (p_data x) None None None) in
        Some (CState (i :: s_starts s) (s_actual s :: s_uppers s) a (s_compiled s) th1)
      else if bool_decide (p_type x = MEnd) then                             (* 214-253 *)
        match s_starts s, s_uppers s with
        | sp :: starts, up :: uppers =>
            let c := s_compiled s in
            let inner := take (i - S sp) (drop (S sp) c) in                  (* 223-229 *)
            let subset := filter (fun p => live p = true) inner in
            let c1 := take sp c ++ map unused (take (i - sp) (drop sp c)) ++ unused x :: drop (S i) c in
            let th1 := alter (fun T => Tmpl (t_name T) (Some subset) (t_subs T) (t_father T)) (s_actual s) (s_heap s) in
            let name := match s_heap s !! s_actual s with Some T => t_name T | None => [] end in
            let th2 := register th1 up name (s_actual s) in
            Some (CState starts uppers up c1 th2)
        | _, _ => None                                                       (* 217-219 *)
        end
      else Some s
  end.
Fixpoint second_pass (k : nat) (i : nat) (s : cstate) : cstate * bool :=
  match k with
  | O => (s, true)
  | S k' => match second_step i s with
            | None => (s, false)
            | Some s' => second_pass k' (S i) s'
            end
  end.
(** v2/xtemplate.go:134-273 [compile], 129-131 [LoadString]; [false]: an error. *)
Definition compile (th : theap) (t : loc) (data : bytes) : theap * bool :=
  let compiled := first_pass data in
  let '(s, ok) := second_pass (length compiled) 0 (CState [] [] t compiled th) in
  if ok then
    match s_starts s with
    | [] => let root := filter (fun p => live p = true) (s_compiled s) in    (* 259-271 *)
            (alter (fun T => Tmpl (t_name T) (Some root) (t_subs T) (t_father T)) t (s_heap s), true)
    | _ => (s_heap s, false)
    end
  else (s_heap s, false).
Definition empty_tmpl : tmpl := Tmpl [] None None None.
(** v2/xtemplate.go:102-109 [NewXTemplateFromString]; [None]: nil and an error. *)
Definition new_template (th : theap) (data : bytes) : theap * option loc :=
  let '(th1, t) := talloc th empty_tmpl in
  let '(th2, ok) := compile th1 t data in (th2, if ok then Some t else None).

(** ** v2/xtemplate.go:285-300 [GetTemplate]; one unit of fuel per call *)
Fixpoint get_template (n : nat) (th : theap) (t : loc) (name : bytes) : outcome (option loc) :=
  match n with
  | O => NoFuel
  | S n' =>
      match th !! t with
      | None => Panic
      | Some T =>
          match t_subs T ≫= (fun m => m !! name) with
          | Some x => Ok (Some x)
          | None => match t_father T with Some f => get_template n' th f name | None => Ok None end
          end
      end
  end.

(** ** Execution *)
Section Execute.
  Context (F : golib) (ord : heap -> gmap bytes value -> list (bytes * value)) (langs : nat -> option lang).
  Context (th : theap).

  (** The state: the data heap and the stack [datacol] (None: nil), outermost first. *)
  Notation stack := (option (list loc)).
  (** Methods of XDatasetCollection used on the stack (v2/xdatasetcollection.go:54-63, 71-151). *)
  Definition stack_data (n : nat) (h : heap) (xs : list loc) (key : bytes) : outcome (option value) :=
    search n h (map Some (reverse xs)) key.
  Definition stack_string (n : nat) (h : heap) (xs : list loc) (key : bytes) : outcome bytes :=
    r <-! stack_data n h xs key;
    match r with
    | None | Some VNil => Ok []
    | Some v => sprint F ord n h v
    end.
  Definition stack_collection (n : nat) (h : heap) (xs : list loc) (key : bytes) : outcome (option loc) :=
    r <-! stack_data n h xs key; Ok (r ≫= as_collection h).
  (** A method call on a nil [datacol]. *)
  Definition non_nil {A} (sc : stack) (f : list loc -> outcome A) : outcome A :=
    match sc with Some xs => f xs | None => Panic end.
  Definition spush (sc : stack) (d : loc) : outcome stack := non_nil sc (fun xs => Ok (Some (xs ++ [d]))).
  Definition spop (sc : stack) : outcome stack :=
    non_nil sc (fun xs => match reverse xs with _ :: r => Ok (Some (reverse r)) | [] => Panic end).

  Section Body.
    Context (n : nat) (lg : option lang).
    (** Recursive calls of [injector]: state, template. *)
    Context (inj : heap * stack -> loc -> outcome (heap * stack * bytes)).
    Notation istate := (heap * stack)%type.
    Definition lookup_template (t : loc) (name : bytes) : outcome (option loc) := get_template n th t name.
    (** What an element appends to [injected]: a list of texts. *)
    Definition run_on (st : istate) (t : loc) : outcome (istate * list bytes) :=
      '(st1, out) <-! inj st t; Ok (st1, [out]).
    Definition run_opt (st : istate) (t : option loc) : outcome (istate * list bytes) :=
      match t with Some t' => run_on st t' | None => Ok (st, []) end.
    (** The first of the templates that is found; the names are tried in order. *)
    Fixpoint try_names (t : loc) (names : list bytes) : outcome (option loc) :=
      match names with
      | [] => Ok None
      | x :: names' => r <-! lookup_template t x;
                       match r with Some y => Ok (Some y) | None => try_names t names' end
      end.
    (** v2/xtemplate.go:334-373, case MetaReference. *)
    Definition do_reference (st : istate) (t : loc) (xid : list bytes) : outcome (istate * list bytes) :=
      match xid with
      | [_; field; prefix] =>
          v <-! non_nil st.2 (fun xs => stack_string n st.1 xs field);
          r <-! try_names t [prefix ++ v; prefix];
          run_opt st r
      | _ =>
          let template := match xid with x :: _ => x | [] => [] end in
          r <-! lookup_template t template;
          match r with
          | None => Ok (st, [])
          | Some subt =>
              match xid with
              | [_; field] =>
                  v <-! non_nil st.2 (fun xs => stack_data n st.1 xs field);
                  match v ≫= as_dataset st.1 with
                  | Some d =>
                      sc1 <-! spush st.2 d;
                      '(st2, out) <-! inj (st.1, sc1) subt;
                      sc3 <-! spop st2.2;
                      Ok ((st2.1, sc3), [out])
                  | None => run_on st subt
                  end
              | _ => run_on st subt
              end
          end
      end.
    (** v2/xtemplate.go:392-418, the loop; one unit of [k] per iteration.  [i+1] does not
        overflow, a slice has less than 2^63 elements. *)
    Definition dot (a b : bytes) : bytes := a ++ B "." ++ b.
    Fixpoint do_loop (k : nat) (i : Z) (st : istate) (t : loc) (subid : bytes) (subt cl : loc) : outcome (istate * list bytes) :=
      match k with
      | O => NoFuel
      | S k' =>
          c <-! ccount st.1 cl;
          if bool_decide (i < c) then
            r <-! try_names t ([dot subid (B "key." ++ itoa i)] ++
                               (if bool_decide (i = 0) then [dot subid (B "first")] else []) ++
                               (if bool_decide (i = c - 1) then [dot subid (B "last")] else []) ++
                               (if bool_decide (Z.rem i 2 = 0) then [dot subid (B "even")] else []));
            let tmp := match r with Some x => x | None => subt end in
            e <-! cget st.1 cl i;
            match e with
            | Some (Some d) =>
                h1 <-! dset n st.1 d (B ".counter") (VInt KInt (i + 1));
                sc1 <-! spush st.2 d;
                '(st2, out) <-! inj (h1, sc1) tmp;
                sc3 <-! spop st2.2;
                '(st4, outs) <-! do_loop k' (i + 1) (st2.1, sc3) t subid subt cl;
                Ok (st4, out :: outs)
            | _ => Panic                                 (* a nil element *)
            end
          else Ok (st, [])
      end.
    (** v2/xtemplate.go:380-385 and 430-435: data and template of @@a:b@@ and ??a:b??. *)
    Definition two_ids (s : bytes) : bytes * bytes :=
      match split_on ":"%char s with
      | a :: b :: _ => (a, b)
      | a :: _ => (a, a)
      | [] => ([], [])
      end.
    (** v2/xtemplate.go:379-428, case MetaRange. *)
    Definition do_range (st : istate) (t : loc) (data : bytes) : outcome (istate * list bytes) :=
      let '(subdata, subid) := two_ids data in
      r <-! lookup_template t subid;
      match r, st.2 with
      | Some subt, Some xs =>
          cl <-! stack_collection n st.1 xs subdata;
          c <-! match cl with Some l => ccount st.1 l | None => Ok 0 end;
          match cl with
          | Some l =>
              if bool_decide (0 < c) then do_loop n 0 st t subid subt l
              else tmp <-! try_names t [dot subid (B "none")];
                   run_on st (match tmp with Some x => x | None => subt end)
          | None => tmp <-! try_names t [dot subid (B "none")];
                    run_on st (match tmp with Some x => x | None => subt end)
          end
      | _, _ => Ok (st, [])
      end.
    (** v2/xtemplate.go:429-475, case MetaCondition.  [value] is VNil when nil. *)
    Definition is_nil (v : value) : bool := match v with VNil => true | _ => false end.
    Definition do_condition (st : istate) (t : loc) (data : bytes) : outcome (istate * list bytes) :=
      let '(subdata, subid) := two_ids data in
      subt <-! lookup_template t subid;
      value <-! match st.2 with
                | Some xs => r <-! stack_data n st.1 xs subdata; Ok (match r with Some v => v | None => VNil end)
                | None => Ok VNil
                end;
      (* 442-465; the value specific template replaces [subt] for the rest of the case *)
      '(st1, outs, subt1) <-!
        match subt with
        | Some s =>
            if is_nil value then Ok (st, [], subt)
            else
              match as_dataset st.1 value with
              | Some d =>
                  sc1 <-! spush st.2 d;
                  tmp <-! lookup_template t (dot subid (B "array"));
                  let s' := match tmp with Some x => x | None => s end in
                  '(st2, out) <-! inj (st.1, sc1) s';
                  sc3 <-! spop st2.2;
                  Ok ((st2.1, sc3), [out], Some s')
              | None =>
                  svalue <-! sprint F ord n st.1 value;
                  match svalue with
                  | [] => Ok (st, [], subt)
                  | _ => tmp <-! lookup_template t (dot subid svalue);
                         let s' := match tmp with Some x => x | None => s end in
                         '(st2, out) <-! inj st s';
                         Ok (st2, [out], Some s')
                  end
              end
        | None => Ok (st, [], subt)
        end;
      (* 466-475 *)
      empty <-! (if is_nil value then Ok true
                 else s <-! sprint F ord n st1.1 value; Ok (match s with [] => true | _ => false end));
      if (empty : bool) then
        tmp <-! lookup_template t (dot subid (B "none"));
        '(st2, outs2) <-! run_opt st1 (match tmp with Some x => Some x | None => subt1 end);
        Ok (st2, outs ++ outs2)
      else Ok (st1, outs).
    (** v2/xtemplate.go:324-489, the switch. *)
    Definition do_param (st : istate) (t : loc) (p : param) : outcome (istate * list bytes) :=
      let v := p_data p in
      if bool_decide (p_type p = MString) then Ok (st, [v])
      else if bool_decide (p_type p = MComment) then Ok (st, [])
      else if bool_decide (p_type p = MLanguage) then
        Ok (st, match lg with Some l => [lget l v] | None => [] end)
      else if bool_decide (p_type p = MReference) then do_reference st t (split_on ":"%char v)
      else if bool_decide (p_type p = MVariable) then                                       (* 374-378 *)
        match st.2 with
        | Some xs => d <-! stack_string n st.1 xs v; Ok (st, [d])
        | None => Ok (st, [])
        end
      else if bool_decide (p_type p = MRange) then do_range st t v
      else if bool_decide (p_type p = MCondition) then do_condition st t v
      else if bool_decide (p_type p = MDump) then                                           (* 476-485 *)
        match st.2 with
        | Some (d :: _) => if bool_decide (v = B "dump" \/ v = B "list")
                           then s <-! show F ord n st.1 true d; Ok (st, [s]) else Ok (st, [])
        | _ => Ok (st, [])
        end
      else Ok (st, [B "THE METALANGUAGE FROM OUTERSPACE IS NOT SUPPORTED: " ++ itoa (p_type p)]).
    Fixpoint do_params (st : istate) (t : loc) (ps : list param) : outcome (istate * list bytes) :=
      match ps with
      | [] => Ok (st, [])
      | p :: ps' => '(st1, a) <-! do_param st t p; '(st2, b) <-! do_params st1 t ps'; Ok (st2, a ++ b)
      end.
  End Body.
  (** v2/xtemplate.go:319-492 [injector]; one unit of fuel per nested call. *)
  Fixpoint injector (n : nat) (lg : option lang) (st : heap * stack) (t : loc) : outcome (heap * stack * bytes) :=
    match n with
    | O => NoFuel
    | S n' =>
        match th !! t with
        | None => Panic
        | Some T =>
            match t_root T with
            | None => Ok (st, B "Error, no template.Root compiled")
            | Some ps => '(st1, outs) <-! do_params n' lg (injector n' lg) st t ps; Ok (st1, concat outs)
            end
        end
    end.
  (** v2/xtemplate.go:303-316 [Execute]: the heap after and the text. *)
  Definition execute (n : nat) (h : heap) (t : loc) (data : option loc) : outcome (heap * bytes) :=
    match data with
    | None => '(st, out) <-! injector n None (h, None) t; Ok (st.1, out)
    | Some d =>
        r <-! dget n h d (B "#");
        let lg := match r with Some (VOther k) => langs k | _ => None end in
        '(st, out) <-! injector n lg (h, Some [d]) t; Ok (st.1, out)
    end.
End Execute.

(** ** v2/xtemplate.go:521-541 [Clone].  [tord] is the order in which Go iterates the map of
    sub templates. *)
Section TClone.
  Context (tord : theap -> gmap bytes loc -> list (bytes * loc)).
  Section Body.
    Context (clone_t : theap -> loc -> outcome (theap * loc)).
    (** 532-535. *)
    Fixpoint clone_subs (l : list (bytes * loc)) (th : theap) (c : loc) (m' : gmap bytes loc) : outcome (theap * gmap bytes loc) :=
      match l with
      | [] => Ok (th, m')
      | (k, x) :: l' =>
          '(th1, x') <-! clone_t th x;
          let th2 := alter (fun X => Tmpl (t_name X) (t_root X) (t_subs X) (Some c)) x th1 in
          clone_subs l' th2 c (<[k := x']> m')
      end.
  End Body.
  Fixpoint tclone (n : nat) (th : theap) (t : loc) : outcome (theap * loc) :=
    match n with
    | O => NoFuel
    | S n' =>
        match th !! t with
        | None => Panic
        | Some T =>
            let '(th1, c) := talloc th (Tmpl (t_name T) (t_root T) None None) in          (* 522-529 *)
            match t_subs T with
            | None => Ok (alter (fun X => Tmpl (t_name X) (t_root X) (t_subs X) (t_father T)) c th1, c)
            | Some m =>
                '(th2, m') <-! clone_subs (tclone n') (tord th m) th1 c ∅;
                (* 538: [t.Father] is read after the loop *)
                let fa := match th2 !! t with Some X => t_father X | None => None end in
                Ok (alter (fun X => Tmpl (t_name X) (t_root X) (Some m') fa) c th2, c)
            end
        end
    end.
End TClone.
