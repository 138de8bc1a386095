(** * Cloning templates while other goroutines clone and execute them (C117).

    Clone, GetTemplate and Execute (v2/xtemplate.go:285-492, 521-541) once more, divided into the
    accesses to the fields of templates that another goroutine may write in between.  Only Clone writes: the
    fields of the template it makes, and Father of the sub templates of the template it copies.  One
    access is one read or one assignment of a field; the accesses of all goroutines happen one after the other
    (the race detector objects to some of them, C80).  The contents of a map of sub templates and of a Root are
    not written once they can be reached, so that a look into them is part of the access that reads the field.
    Each goroutine has data of its own, which its executions change alone: [heap] is threaded through. *)
From Verif Require Import GoBase GoStrings DatasetModel LangModel TemplateModel.
Local Open Scope Z_scope.

(** A goroutine: what it does next. [TAct w k]: one access, which writes [w] and goes on with [k]. *)
Inductive tact (A : Type) : Type :=
| TRet (a : A)
| TFail                                    (* a panic *)
| TOut                                     (* out of fuel *)
| TAct (w : theap -> theap) (k : theap -> tact A).
Arguments TRet {A} a. Arguments TFail {A}. Arguments TOut {A}. Arguments TAct {A} w k.
Fixpoint tbind {A C} (m : tact A) (f : A -> tact C) : tact C :=
  match m with TRet a => f a | TFail => TFail | TOut => TOut | TAct w k => TAct w (fun th => tbind (k th) f) end.
Notation "x <~ e ; f" := (tbind e (fun x => f)) (at level 100, e at level 99, f at level 200, right associativity).
Notation "' p <~ e ; f" := (tbind e (fun x => match x with p => f end)) (at level 100, p strict pattern, e at level 99, f at level 200, right associativity).
Definition tlift {A} (r : outcome A) : tact A := match r with Ok a => TRet a | Panic => TFail | NoFuel => TOut end.
(** A field of a template is read; a template is made; a field is assigned. *)
Definition field {A} (t : loc) (f : tmpl -> A) : tact A :=
  TAct (fun th => th) (fun th => match th !! t with Some T => TRet (f T) | None => TFail end).
Definition make (T : tmpl) : tact loc := TAct (fun th => (talloc th T).1) (fun th => TRet (talloc th T).2).
Definition assign (t : loc) (f : tmpl -> tmpl) : tact unit :=
  TAct (fun th => alter f t th) (fun th => match th !! t with Some _ => TRet tt | None => TFail end).
Definition with_root (r : option (list param)) (T : tmpl) : tmpl := Tmpl (t_name T) r (t_subs T) (t_father T).
Definition with_subs (m : option (gmap bytes loc)) (T : tmpl) : tmpl := Tmpl (t_name T) (t_root T) m (t_father T).
Definition with_father (f : option loc) (T : tmpl) : tmpl := Tmpl (t_name T) (t_root T) (t_subs T) f.

(** A goroutine that is alone; several goroutines, one of which makes an access. *)
Fixpoint talone {A} (m : tact A) (th : theap) : outcome (theap * A) :=
  match m with TRet a => Ok (th, a) | TFail => Panic | TOut => NoFuel | TAct w k => talone (k th) (w th) end.
Inductive tstep {A} : theap * list (tact A) -> theap * list (tact A) -> Prop :=
| ts_act th ps i w k : ps !! i = Some (TAct w k) -> tstep (th, ps) (w th, <[i := k th]> ps).

(** ** v2/xtemplate.go:285-300 [GetTemplate]: Father and SubTemplates are read twice each *)
Section Up.
  Context (t : loc) (next : loc -> tact (option loc)).
  Definition t_up : tact (option loc) :=
    f <~ field t t_father;
    match f with
    | None => TRet None
    | Some _ => g <~ field t t_father; match g with Some x => next x | None => TFail end
    end.
End Up.
Fixpoint t_get (n : nat) (t : loc) (name : bytes) : tact (option loc) :=
  match n with
  | O => TOut
  | S n' =>
      s <~ field t t_subs;
      match s with
      | None => t_up t (fun x => t_get n' x name)
      | Some _ =>
          r <~ field t (fun T => t_subs T ≫= (fun m => m !! name));
          match r with Some x => TRet (Some x) | None => t_up t (fun x => t_get n' x name) end
      end
  end.

(** ** v2/xtemplate.go:521-541 [Clone].  [tord]: the order in which this goroutine finds the entries of a map. *)
Section TClone.
  Context (tord : theap -> gmap bytes loc -> list (bytes * loc)).
  Section Body.
    Context (clone_t : loc -> tact loc).
    (** 532-535. *)
    Fixpoint t_clone_subs (l : list (bytes * loc)) (c : loc) (m' : gmap bytes loc) : tact (gmap bytes loc) :=
      match l with
      | [] => TRet m'
      | (k, x) :: l' =>
          x' <~ clone_t x;
          _ <~ assign x (with_father (Some c));
          t_clone_subs l' c (<[k := x']> m')
      end.
  End Body.
  (** The entries of the map, in order. *)
  Definition t_entries (t : loc) : tact (list (bytes * loc)) :=
    TAct (fun th => th) (fun th => match th !! t with Some T => TRet (match t_subs T with Some m => tord th m | None => [] end) | None => TFail end).
  Fixpoint t_clone (n : nat) (t : loc) : tact loc :=
    match n with
    | O => TOut
    | S n' =>
        name <~ field t t_name;
        c <~ make (Tmpl name None None None);                                             (* 522 *)
        r <~ field t t_root;
        _ <~ match r with                                                                 (* 523-529 *)
             | None => TRet tt
             | Some _ => r2 <~ field t t_root; match r2 with Some ps => assign c (with_root (Some ps)) | None => TFail end
             end;
        s <~ field t t_subs;
        _ <~ match s with                                                                 (* 530-537 *)
             | None => TRet tt
             | Some _ => l <~ t_entries t; m' <~ t_clone_subs (t_clone n') l c ∅; assign c (with_subs (Some m'))
             end;
        f <~ field t t_father;                                                            (* 538 *)
        _ <~ assign c (with_father f);
        TRet c
    end.
End TClone.

(** ** v2/xtemplate.go:303-492 [Execute] *)
Section Execute.
  Context (F : golib) (ord : heap -> gmap bytes value -> list (bytes * value)) (langs : nat -> option lang).
  Notation stack := (option (list loc)).
  Section Body.
    Context (n : nat) (lg : option lang).
    Notation istate := (heap * stack)%type.
    Context (inj : istate -> loc -> tact (istate * bytes)).
    Definition t_run_on (st : istate) (t : loc) : tact (istate * list bytes) := '(st1, out) <~ inj st t; TRet (st1, [out]).
    Definition t_run_opt (st : istate) (t : option loc) : tact (istate * list bytes) :=
      match t with Some t' => t_run_on st t' | None => TRet (st, []) end.
    Fixpoint t_names (t : loc) (names : list bytes) : tact (option loc) :=
      match names with
      | [] => TRet None
      | x :: names' => r <~ t_get n t x; match r with Some y => TRet (Some y) | None => t_names t names' end
      end.
    (** v2/xtemplate.go:334-373. *)
    Definition t_reference (st : istate) (t : loc) (xid : list bytes) : tact (istate * list bytes) :=
      match xid with
      | [_; field; prefix] =>
          v <~ tlift (non_nil st.2 (fun xs => stack_string F ord n st.1 xs field));
          r <~ t_names t [prefix ++ v; prefix];
          t_run_opt st r
      | _ =>
          let template := match xid with x :: _ => x | [] => [] end in
          r <~ t_get n t template;
          match r with
          | None => TRet (st, [])
          | Some subt =>
              match xid with
              | [_; field] =>
                  v <~ tlift (non_nil st.2 (fun xs => stack_data n st.1 xs field));
                  match v ≫= as_dataset st.1 with
                  | Some d =>
                      sc1 <~ tlift (spush st.2 d);
                      '(st2, out) <~ inj (st.1, sc1) subt;
                      sc3 <~ tlift (spop st2.2);
                      TRet ((st2.1, sc3), [out])
                  | None => t_run_on st subt
                  end
              | _ => t_run_on st subt
              end
          end
      end.
    (** v2/xtemplate.go:392-418. *)
    Fixpoint t_loop (k : nat) (i : Z) (st : istate) (t : loc) (subid : bytes) (subt cl : loc) : tact (istate * list bytes) :=
      match k with
      | O => TOut
      | S k' =>
          c <~ tlift (ccount st.1 cl);
          if bool_decide (i < c) then
            r <~ t_names t ([dot subid (B "key." ++ itoa i)] ++
                            (if bool_decide (i = 0) then [dot subid (B "first")] else []) ++
                            (if bool_decide (i = c - 1) then [dot subid (B "last")] else []) ++
                            (if bool_decide (Z.rem i 2 = 0) then [dot subid (B "even")] else []));
            let tmp := match r with Some x => x | None => subt end in
            e <~ tlift (cget st.1 cl i);
            match e with
            | Some (Some d) =>
                h1 <~ tlift (dset n st.1 d (B ".counter") (VInt KInt (i + 1)));
                sc1 <~ tlift (spush st.2 d);
                '(st2, out) <~ inj (h1, sc1) tmp;
                sc3 <~ tlift (spop st2.2);
                '(st4, outs) <~ t_loop k' (i + 1) (st2.1, sc3) t subid subt cl;
                TRet (st4, out :: outs)
            | _ => TFail
            end
          else TRet (st, [])
      end.
    (** v2/xtemplate.go:379-428. *)
    Definition t_range (st : istate) (t : loc) (data : bytes) : tact (istate * list bytes) :=
      let '(subdata, subid) := two_ids data in
      r <~ t_get n t subid;
      match r, st.2 with
      | Some subt, Some xs =>
          cl <~ tlift (stack_collection n st.1 xs subdata);
          c <~ tlift (match cl with Some l => ccount st.1 l | None => Ok 0 end);
          match cl with
          | Some l =>
              if bool_decide (0 < c) then t_loop n 0 st t subid subt l
              else tmp <~ t_names t [dot subid (B "none")];
                   t_run_on st (match tmp with Some x => x | None => subt end)
          | None => tmp <~ t_names t [dot subid (B "none")];
                    t_run_on st (match tmp with Some x => x | None => subt end)
          end
      | _, _ => TRet (st, [])
      end.
    (** v2/xtemplate.go:429-475. *)
    Definition t_condition (st : istate) (t : loc) (data : bytes) : tact (istate * list bytes) :=
      let '(subdata, subid) := two_ids data in
      subt <~ t_get n t subid;
      value <~ tlift (match st.2 with
                      | Some xs => r <-! stack_data n st.1 xs subdata; Ok (match r with Some v => v | None => VNil end)
                      | None => Ok VNil
                      end);
      '(st1, outs, subt1) <~
        match subt with
        | Some s =>
            if is_nil value then TRet (st, [], subt)
            else
              match as_dataset st.1 value with
              | Some d =>
                  sc1 <~ tlift (spush st.2 d);
                  tmp <~ t_get n t (dot subid (B "array"));
                  let s' := match tmp with Some x => x | None => s end in
                  '(st2, out) <~ inj (st.1, sc1) s';
                  sc3 <~ tlift (spop st2.2);
                  TRet ((st2.1, sc3), [out], Some s')
              | None =>
                  svalue <~ tlift (sprint F ord n st.1 value);
                  match svalue with
                  | [] => TRet (st, [], subt)
                  | _ => tmp <~ t_get n t (dot subid svalue);
                         let s' := match tmp with Some x => x | None => s end in
                         '(st2, out) <~ inj st s';
                         TRet (st2, [out], Some s')
                  end
              end
        | None => TRet (st, [], subt)
        end;
      empty <~ tlift (if is_nil value then Ok true
                      else s <-! sprint F ord n st1.1 value; Ok (match s with [] => true | _ => false end));
      if (empty : bool) then
        tmp <~ t_get n t (dot subid (B "none"));
        '(st2, outs2) <~ t_run_opt st1 (match tmp with Some x => Some x | None => subt1 end);
        TRet (st2, outs ++ outs2)
      else TRet (st1, outs).
    (** v2/xtemplate.go:324-489. *)
    Definition t_param (st : istate) (t : loc) (p : param) : tact (istate * list bytes) :=
      let v := p_data p in
      if bool_decide (p_type p = MString) then TRet (st, [v])
      else if bool_decide (p_type p = MComment) then TRet (st, [])
      else if bool_decide (p_type p = MLanguage) then
        TRet (st, match lg with Some l => [lget l v] | None => [] end)
      else if bool_decide (p_type p = MReference) then t_reference st t (split_on ":"%char v)
      else if bool_decide (p_type p = MVariable) then
        match st.2 with
        | Some xs => d <~ tlift (stack_string F ord n st.1 xs v); TRet (st, [d])
        | None => TRet (st, [])
        end
      else if bool_decide (p_type p = MRange) then t_range st t v
      else if bool_decide (p_type p = MCondition) then t_condition st t v
      else if bool_decide (p_type p = MDump) then
        match st.2 with
        | Some (d :: _) => if bool_decide (v = B "dump" \/ v = B "list")
                           then s <~ tlift (show F ord n st.1 true d); TRet (st, [s]) else TRet (st, [])
        | _ => TRet (st, [])
        end
      else TRet (st, [B "THE METALANGUAGE FROM OUTERSPACE IS NOT SUPPORTED: " ++ itoa (p_type p)]).
    Fixpoint t_params (st : istate) (t : loc) (ps : list param) : tact (istate * list bytes) :=
      match ps with
      | [] => TRet (st, [])
      | p :: ps' => '(st1, a) <~ t_param st t p; '(st2, b) <~ t_params st1 t ps'; TRet (st2, a ++ b)
      end.
  End Body.
  (** v2/xtemplate.go:319-492; Root is compared with nil and then followed. *)
  Fixpoint t_injector (n : nat) (lg : option lang) (st : heap * stack) (t : loc) : tact (heap * stack * bytes) :=
    match n with
    | O => TOut
    | S n' =>
        r <~ field t t_root;
        match r with
        | None => TRet (st, B "Error, no template.Root compiled")
        | Some _ =>
            r2 <~ field t t_root;
            match r2 with
            | Some ps => '(st1, outs) <~ t_params n' lg (t_injector n' lg) st t ps; TRet (st1, concat outs)
            | None => TFail
            end
        end
    end.
  (** v2/xtemplate.go:303-316. *)
  Definition t_execute (n : nat) (h : heap) (t : loc) (data : option loc) : tact (heap * bytes) :=
    match data with
    | None => '(st, out) <~ t_injector n None (h, None) t; TRet (st.1, out)
    | Some d =>
        r <~ tlift (dget n h d (B "#"));
        let lg := match r with Some (VOther k) => langs k | _ => None end in
        '(st, out) <~ t_injector n lg (h, Some [d]) t; TRet (st.1, out)
    end.

  (** ** What a goroutine does: it holds templates, clones some of them (the clones it holds as well,
      last) and executes some of them with its data, and answers with what it holds and the texts; or it looks
      up a name. *)
  Inductive command :=
  | Copy (i : nat) (tord : theap -> gmap bytes loc -> list (bytes * loc))
  | Show (i : nat) (data : option loc).
  Inductive job :=
  | Script (held : list loc) (h : heap) (cs : list command)
  | Lookup (t : loc) (name : bytes).
  Inductive answer :=
  | Did (held : list loc) (texts : list bytes)
  | Saw (r : option loc).
  Fixpoint t_script (n : nat) (held : list loc) (h : heap) (cs : list command) : tact (list loc * list bytes) :=
    match cs with
    | [] => TRet (held, [])
    | Copy i tord :: cs' =>
        match held !! i with
        | Some t => c <~ t_clone tord n t; t_script n (held ++ [c]) h cs'
        | None => TFail
        end
    | Show i data :: cs' =>
        match held !! i with
        | Some t => '(h1, out) <~ t_execute n h t data; '(held1, outs) <~ t_script n held h1 cs'; TRet (held1, out :: outs)
        | None => TFail
        end
    end.
  Definition t_job (n : nat) (j : job) : tact answer :=
    match j with
    | Script held h cs => '(held1, outs) <~ t_script n held h cs; TRet (Did held1 outs)
    | Lookup t name => r <~ t_get n t name; TRet (Saw r)
    end.
End Execute.
