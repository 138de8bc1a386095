(** * Executing templates while the languages change (C121): Execute as a sequence of calls of XLanguage.Get.

    The functions are those of TemplateModel.v (v2/xtemplate.go:303-492) once more, divided at the calls of
    XLanguage.Get (v2/xlanguage.go:209-216, one section under the lock of the language), between which other
    goroutines may change the language.  The data and the templates are used by this goroutine only, or
    changed by nobody (data that others change: ParModel.v). *)
From Verif Require Import GoBase GoStrings DatasetModel LangModel TemplateModel LangConc.
Local Open Scope Z_scope.

(** What a goroutine does next. [Ask l name k]: Get(name) of language [l], then [k] with the answer. *)
Inductive talk (A : Type) : Type :=
| Say (a : A)
| Break                                    (* a panic *)
| Tired                                    (* out of fuel *)
| Ask (l : nat) (name : bytes) (k : bytes -> talk A).
Arguments Say {A} a. Arguments Break {A}. Arguments Tired {A}. Arguments Ask {A} l name k.
Fixpoint kbind {A C} (m : talk A) (f : A -> talk C) : talk C :=
  match m with Say a => f a | Break => Break | Tired => Tired | Ask l name k => Ask l name (fun v => kbind (k v) f) end.
Notation "x <~ e ; f" := (kbind e (fun x => f)) (at level 100, e at level 99, f at level 200, right associativity).
Notation "' p <~ e ; f" := (kbind e (fun x => match x with p => f end)) (at level 100, p strict pattern, e at level 99, f at level 200, right associativity).
(** Computations that ask nothing. *)
Definition think {A} (r : outcome A) : talk A := match r with Ok a => Say a | Panic => Break | NoFuel => Tired end.
(** A goroutine that is alone with the languages. *)
Fixpoint hear {A} (ls : nat -> lang) (m : talk A) : outcome A :=
  match m with Say a => Ok a | Break => Panic | Tired => NoFuel | Ask l name k => hear ls (k (lget (ls l) name)) end.

Section Execute.
  Context (F : golib) (ord : heap -> gmap bytes value -> list (bytes * value)) (known : nat -> bool).
  Context (th : theap).
  Notation stack := (option (list loc)).
  Notation istate := (heap * stack)%type.
  Section Body.
    Context (n : nat) (lg : nat).
    Context (inj : istate -> loc -> talk (istate * bytes)).
    (** As run_on, run_opt. *)
    Definition s_run (st : istate) (t : loc) : talk (istate * list bytes) := '(st1, out) <~ inj st t; Say (st1, [out]).
    Definition s_run_opt (st : istate) (t : option loc) : talk (istate * list bytes) :=
      match t with Some t' => s_run st t' | None => Say (st, []) end.
    (** v2/xtemplate.go:334-373. *)
    Definition s_reference (st : istate) (t : loc) (xid : list bytes) : talk (istate * list bytes) :=
      match xid with
      | [_; field; prefix] =>
          v <~ think (non_nil st.2 (fun xs => stack_string F ord n st.1 xs field));
          r <~ think (try_names th n t [prefix ++ v; prefix]);
          s_run_opt st r
      | _ =>
          let template := match xid with x :: _ => x | [] => [] end in
          r <~ think (lookup_template th n t template);
          match r with
          | None => Say (st, [])
          | Some subt =>
              match xid with
              | [_; field] =>
                  v <~ think (non_nil st.2 (fun xs => stack_data n st.1 xs field));
                  match v ≫= as_dataset st.1 with
                  | Some d =>
                      sc1 <~ think (spush st.2 d);
                      '(st2, out) <~ inj (st.1, sc1) subt;
                      sc3 <~ think (spop st2.2);
                      Say ((st2.1, sc3), [out])
                  | None => s_run st subt
                  end
              | _ => s_run st subt
              end
          end
      end.
    (** v2/xtemplate.go:392-418. *)
    Fixpoint s_loop (k : nat) (i : Z) (st : istate) (t : loc) (subid : bytes) (subt cl : loc) : talk (istate * list bytes) :=
      match k with
      | O => Tired
      | S k' =>
          c <~ think (ccount st.1 cl);
          if bool_decide (i < c) then
            r <~ think (try_names th n t ([dot subid (B "key." ++ itoa i)] ++
                               (if bool_decide (i = 0) then [dot subid (B "first")] else []) ++
                               (if bool_decide (i = c - 1) then [dot subid (B "last")] else []) ++
                               (if bool_decide (Z.rem i 2 = 0) then [dot subid (B "even")] else [])));
            let tmp := match r with Some x => x | None => subt end in
            e <~ think (cget st.1 cl i);
            match e with
            | Some (Some d) =>
                h1 <~ think (dset n st.1 d (B ".counter") (VInt KInt (i + 1)));
                sc1 <~ think (spush st.2 d);
                '(st2, out) <~ inj (h1, sc1) tmp;
                sc3 <~ think (spop st2.2);
                '(st4, outs) <~ s_loop k' (i + 1) (st2.1, sc3) t subid subt cl;
                Say (st4, out :: outs)
            | _ => Break
            end
          else Say (st, [])
      end.
    (** v2/xtemplate.go:379-428. *)
    Definition s_range (st : istate) (t : loc) (data : bytes) : talk (istate * list bytes) :=
      let '(subdata, subid) := two_ids data in
      r <~ think (lookup_template th n t subid);
      match r, st.2 with
      | Some subt, Some xs =>
          cl <~ think (stack_collection n st.1 xs subdata);
          c <~ think (match cl with Some l => ccount st.1 l | None => Ok 0 end);
          match cl with
          | Some l =>
              if bool_decide (0 < c) then s_loop n 0 st t subid subt l
              else tmp <~ think (try_names th n t [dot subid (B "none")]);
                   s_run st (match tmp with Some x => x | None => subt end)
          | None => tmp <~ think (try_names th n t [dot subid (B "none")]);
                    s_run st (match tmp with Some x => x | None => subt end)
          end
      | _, _ => Say (st, [])
      end.
    (** v2/xtemplate.go:429-475. *)
    Definition s_condition (st : istate) (t : loc) (data : bytes) : talk (istate * list bytes) :=
      let '(subdata, subid) := two_ids data in
      subt <~ think (lookup_template th n t subid);
      value <~ think (match st.2 with
                | Some xs => r <-! stack_data n st.1 xs subdata; Ok (match r with Some v => v | None => VNil end)
                | None => Ok VNil
                end);
      '(st1, outs, subt1) <~
        match subt with
        | Some s =>
            if is_nil value then Say (st, [], subt)
            else
              match as_dataset st.1 value with
              | Some d =>
                  sc1 <~ think (spush st.2 d);
                  tmp <~ think (lookup_template th n t (dot subid (B "array")));
                  let s' := match tmp with Some x => x | None => s end in
                  '(st2, out) <~ inj (st.1, sc1) s';
                  sc3 <~ think (spop st2.2);
                  Say ((st2.1, sc3), [out], Some s')
              | None =>
                  svalue <~ think (sprint F ord n st.1 value);
                  match svalue with
                  | [] => Say (st, [], subt)
                  | _ => tmp <~ think (lookup_template th n t (dot subid svalue));
                         let s' := match tmp with Some x => x | None => s end in
                         '(st2, out) <~ inj st s';
                         Say (st2, [out], Some s')
                  end
              end
        | None => Say (st, [], subt)
        end;
      empty <~ think (if is_nil value then Ok true
                 else s <-! sprint F ord n st1.1 value; Ok (match s with [] => true | _ => false end));
      if (empty : bool) then
        tmp <~ think (lookup_template th n t (dot subid (B "none")));
        '(st2, outs2) <~ s_run_opt st1 (match tmp with Some x => Some x | None => subt1 end);
        Say (st2, outs ++ outs2)
      else Say (st1, outs).
    (** v2/xtemplate.go:324-489; the call of Get is in line 330-332. *)
    Definition s_param (st : istate) (t : loc) (p : param) : talk (istate * list bytes) :=
      let v := p_data p in
      if bool_decide (p_type p = MString) then Say (st, [v])
      else if bool_decide (p_type p = MComment) then Say (st, [])
      else if bool_decide (p_type p = MLanguage) then Ask lg v (fun s => Say (st, [s]))
      else if bool_decide (p_type p = MReference) then s_reference st t (split_on ":"%char v)
      else if bool_decide (p_type p = MVariable) then
        match st.2 with
        | Some xs => d <~ think (stack_string F ord n st.1 xs v); Say (st, [d])
        | None => Say (st, [])
        end
      else if bool_decide (p_type p = MRange) then s_range st t v
      else if bool_decide (p_type p = MCondition) then s_condition st t v
      else if bool_decide (p_type p = MDump) then
        match st.2 with
        | Some (d :: _) => if bool_decide (v = B "dump" \/ v = B "list")
                           then s <~ think (show F ord n st.1 true d); Say (st, [s]) else Say (st, [])
        | _ => Say (st, [])
        end
      else Say (st, [B "THE METALANGUAGE FROM OUTERSPACE IS NOT SUPPORTED: " ++ itoa (p_type p)]).
    Fixpoint s_params (st : istate) (t : loc) (ps : list param) : talk (istate * list bytes) :=
      match ps with
      | [] => Say (st, [])
      | p :: ps' => '(st1, a) <~ s_param st t p; '(st2, b) <~ s_params st1 t ps'; Say (st2, a ++ b)
      end.
  End Body.
  (** v2/xtemplate.go:319-492 with the language [lg]. *)
  Fixpoint s_inject (n : nat) (lg : nat) (st : istate) (t : loc) : talk (istate * bytes) :=
    match n with
    | O => Tired
    | S n' =>
        match th !! t with
        | None => Break
        | Some T =>
            match t_root T with
            | None => Say (st, B "Error, no template.Root compiled")
            | Some ps => '(st1, outs) <~ s_params n' lg (s_inject n' lg) st t ps; Say (st1, concat outs)
            end
        end
    end.
  (** v2/xtemplate.go:303-316; [known k]: the value number [k] is a language.  Without language nothing is asked. *)
  Definition s_execute (n : nat) (h : heap) (t : loc) (d : loc) : talk (heap * bytes) :=
    r <~ think (dget n h d (B "#"));
    match r with
    | Some (VOther k) => if known k then '(st, out) <~ s_inject n k (h, Some [d]) t; Say (st.1, out)
                         else '(st, out) <~ think (injector F ord th n None (h, Some [d]) t); Say (st.1, out)
    | _ => '(st, out) <~ think (injector F ord th n None (h, Some [d]) t); Say (st.1, out)
    end.
End Execute.

(** Goroutines: executions, and calls that change languages section by section. *)
Inductive goroutine := Speaks (m : talk (heap * bytes)) | Writes (l : list (nat * (lang -> lang))).
Definition set_lang (ls : nat -> lang) (l : nat) (x : lang) : nat -> lang := fun k => if decide (k = l) then x else ls k.
Inductive hall_step : (nat -> lang) * list goroutine -> (nat -> lang) * list goroutine -> Prop :=
| hs_ask ls gs i l name k : gs !! i = Some (Speaks (Ask l name k)) -> hall_step (ls, gs) (ls, <[i := Speaks (k (lget (ls l) name))]> gs)
| hs_write ls gs i l w rest : gs !! i = Some (Writes ((l, w) :: rest)) -> hall_step (ls, gs) (set_lang ls l (w (ls l)), <[i := Writes rest]> gs).
(** The sections of a call of XLanguage, as in LangConc.v. *)
Definition sections (parse_tag : bytes -> bytes) (decode : bytes -> option xdoc) (l : nat) (c : lcall) : list (nat * (lang -> lang)) :=
  map (fun a => (l, fun x => pass x a)) (atoms parse_tag decode c) ++ [(l, fun x => (finish decode x c).1)].
