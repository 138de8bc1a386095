(** * Executions at the same time (C112): Execute as a sequence of accesses to the data.

    The functions are those of TemplateModel.v (v2/xtemplate.go:303-492) once more, divided into the
    accesses to the data that other goroutines may change in between.  One access is one call of a
    method of a dataset or collection: Get, Count, Set (atomic for XDatasetTS and
    XDatasetCollectionTS, which lock; plain objects are written by nobody or by one goroutine only
    where the theorems apply, C80).  fmt.Sprint of a stored value and the dump are one access as well.
    The templates and the languages are not changed by anybody. *)
From Verif Require Import GoBase GoStrings DatasetModel LangModel TemplateModel.
Local Open Scope Z_scope.

(** A goroutine: what it does next. [Act w k]: one access, which writes [w] and goes on with [k]. *)
Inductive act (A : Type) : Type :=
| Ret (a : A)
| Fail                                     (* a panic *)
| Out                                      (* out of fuel *)
| Act (w : heap -> heap) (k : heap -> act A).
Arguments Ret {A} a. Arguments Fail {A}. Arguments Out {A}. Arguments Act {A} w k.
(** One after the other; results of pure computations; an access that reads; an access that writes. *)
Fixpoint abind {A C} (m : act A) (f : A -> act C) : act C :=
  match m with Ret a => f a | Fail => Fail | Out => Out | Act w k => Act w (fun h => abind (k h) f) end.
Notation "x <~ e ; f" := (abind e (fun x => f)) (at level 100, e at level 99, f at level 200, right associativity).
Notation "' p <~ e ; f" := (abind e (fun x => match x with p => f end)) (at level 100, p strict pattern, e at level 99, f at level 200, right associativity).
Definition lift {A} (r : outcome A) : act A := match r with Ok a => Ret a | Panic => Fail | NoFuel => Out end.
Definition read {A} (f : heap -> outcome A) : act A := Act (fun h => h) (fun h => lift (f h)).
Definition write (f : heap -> outcome heap) : act unit :=
  Act (fun h => match f h with Ok h1 => h1 | _ => h end) (fun h => match f h with Ok _ => Ret tt | Panic => Fail | NoFuel => Out end).
(** A goroutine that is alone. *)
Fixpoint alone {A} (m : act A) (h : heap) : outcome (heap * A) :=
  match m with Ret a => Ok (h, a) | Fail => Panic | Out => NoFuel | Act w k => alone (k h) (w h) end.
(** Several goroutines: one of them makes an access. *)
Inductive par_step {A} : heap * list (act A) -> heap * list (act A) -> Prop :=
| par_act h ps i w k : ps !! i = Some (Act w k) -> par_step (h, ps) (w h, <[i := k h]> ps).

Section Execute.
  Context (F : golib) (ord : heap -> gmap bytes value -> list (bytes * value)) (langs : nat -> option lang).
  Context (th : theap).
  Notation stack := (option (list loc)).
  (** GetData on the stack, innermost first: one Get per dataset (v2/xdatasetcollection.go:79-87). *)
  Fixpoint p_search (n : nat) (back : list loc) (key : bytes) : act (option value) :=
    match back with
    | [] => Ret None
    | d :: back' => r <~ read (fun h => dget n h d key); match r with Some v => Ret (Some v) | None => p_search n back' key end
    end.
  (** The stack as a list (v2/xtemplate.go:311-312). *)
  Definition p_data (n : nat) (xs : list loc) (key : bytes) : act (option value) := p_search n (reverse xs) key.
  (** GetDataString: v2/xdatasetcollection.go:90-98. *)
  Definition p_string (n : nat) (xs : list loc) (key : bytes) : act bytes :=
    r <~ p_data n xs key;
    match r with
    | None | Some VNil => Ret []
    | Some v => read (fun h => sprint F ord n h v)
    end.
  (** GetCollection: v2/xdatasetcollection.go:141-151; the type switch reads the kind of the object. *)
  Definition p_collection (n : nat) (xs : list loc) (key : bytes) : act (option loc) :=
    r <~ p_data n xs key; read (fun h => Ok (r ≫= as_collection h)).
  (** A method of a nil stack panics: v2/xtemplate.go:339, 360. *)
  Definition p_non_nil {A} (sc : stack) (f : list loc -> act A) : act A := match sc with Some xs => f xs | None => Fail end.

  Section Body.
    Context (n : nat) (lg : option lang).
    Context (inj : stack -> loc -> act (stack * bytes)).
    (** injector on a sub template, when there is one: v2/xtemplate.go:350-368. *)
    Definition p_run (sc : stack) (t : loc) : act (stack * list bytes) := '(sc1, out) <~ inj sc t; Ret (sc1, [out]).
    Definition p_run_opt (sc : stack) (t : option loc) : act (stack * list bytes) :=
      match t with Some t' => p_run sc t' | None => Ret (sc, []) end.
    (** v2/xtemplate.go:334-373. *)
    Definition p_reference (sc : stack) (t : loc) (xid : list bytes) : act (stack * list bytes) :=
      match xid with
      | [_; field; prefix] =>
          v <~ p_non_nil sc (fun xs => p_string n xs field);
          r <~ lift (try_names th n t [prefix ++ v; prefix]);
          p_run_opt sc r
      | _ =>
          let template := match xid with x :: _ => x | [] => [] end in
          r <~ lift (lookup_template th n t template);
          match r with
          | None => Ret (sc, [])
          | Some subt =>
              match xid with
              | [_; field] =>
                  v <~ p_non_nil sc (fun xs => p_data n xs field);
                  d <~ read (fun h => Ok (v ≫= as_dataset h));
                  match d with
                  | Some d =>
                      sc1 <~ lift (spush sc d);
                      '(sc2, out) <~ inj sc1 subt;
                      sc3 <~ lift (spop sc2);
                      Ret (sc3, [out])
                  | None => p_run sc subt
                  end
              | _ => p_run sc subt
              end
          end
      end.
    (** v2/xtemplate.go:392-418; Count is called again for .last (line 401). *)
    Fixpoint p_loop (k : nat) (i : Z) (sc : stack) (t : loc) (subid : bytes) (subt cl : loc) : act (stack * list bytes) :=
      match k with
      | O => Out
      | S k' =>
          c <~ read (fun h => ccount h cl);
          if bool_decide (i < c) then
            r1 <~ lift (try_names th n t ([dot subid (B "key." ++ itoa i)] ++ (if bool_decide (i = 0) then [dot subid (B "first")] else [])));
            r <~ match r1 with
                 | Some x => Ret (Some x)
                 | None => c2 <~ read (fun h => ccount h cl);
                           lift (try_names th n t ((if bool_decide (i = c2 - 1) then [dot subid (B "last")] else []) ++
                                                   (if bool_decide (Z.rem i 2 = 0) then [dot subid (B "even")] else [])))
                 end;
            let tmp := match r with Some x => x | None => subt end in
            e <~ read (fun h => cget h cl i);
            match e with
            | Some (Some d) =>
                _ <~ write (fun h => dset n h d (B ".counter") (VInt KInt (i + 1)));
                sc1 <~ lift (spush sc d);
                '(sc2, out) <~ inj sc1 tmp;
                sc3 <~ lift (spop sc2);
                '(sc4, outs) <~ p_loop k' (i + 1) sc3 t subid subt cl;
                Ret (sc4, out :: outs)
            | _ => Fail
            end
          else Ret (sc, [])
      end.
    (** v2/xtemplate.go:379-428. *)
    Definition p_range (sc : stack) (t : loc) (data : bytes) : act (stack * list bytes) :=
      let '(subdata, subid) := two_ids data in
      r <~ lift (lookup_template th n t subid);
      match r, sc with
      | Some subt, Some xs =>
          cl <~ p_collection n xs subdata;
          c <~ match cl with Some l => read (fun h => ccount h l) | None => Ret 0 end;
          match cl with
          | Some l =>
              if bool_decide (0 < c) then p_loop n 0 sc t subid subt l
              else tmp <~ lift (try_names th n t [dot subid (B "none")]);
                   p_run sc (match tmp with Some x => x | None => subt end)
          | None => tmp <~ lift (try_names th n t [dot subid (B "none")]);
                    p_run sc (match tmp with Some x => x | None => subt end)
          end
      | _, _ => Ret (sc, [])
      end.
    (** v2/xtemplate.go:429-475. *)
    Definition p_condition (sc : stack) (t : loc) (data : bytes) : act (stack * list bytes) :=
      let '(subdata, subid) := two_ids data in
      subt <~ lift (lookup_template th n t subid);
      value <~ match sc with
               | Some xs => r <~ p_data n xs subdata; Ret (match r with Some v => v | None => VNil end)
               | None => Ret VNil
               end;
      '(sc1, outs, subt1) <~
        match subt with
        | Some s =>
            if is_nil value then Ret (sc, [], subt)
            else
              d <~ read (fun h => Ok (as_dataset h value));
              match d with
              | Some d =>
                  sc1 <~ lift (spush sc d);
                  tmp <~ lift (lookup_template th n t (dot subid (B "array")));
                  let s' := match tmp with Some x => x | None => s end in
                  '(sc2, out) <~ inj sc1 s';
                  sc3 <~ lift (spop sc2);
                  Ret (sc3, [out], Some s')
              | None =>
                  svalue <~ read (fun h => sprint F ord n h value);
                  match svalue with
                  | [] => Ret (sc, [], subt)
                  | _ => tmp <~ lift (lookup_template th n t (dot subid svalue));
                         let s' := match tmp with Some x => x | None => s end in
                         '(sc2, out) <~ inj sc s';
                         Ret (sc2, [out], Some s')
                  end
              end
        | None => Ret (sc, [], subt)
        end;
      empty <~ (if is_nil value then Ret true
                else read (fun h => s <-! sprint F ord n h value; Ok (match s with [] => true | _ => false end)));
      if (empty : bool) then
        tmp <~ lift (lookup_template th n t (dot subid (B "none")));
        '(sc2, outs2) <~ p_run_opt sc1 (match tmp with Some x => Some x | None => subt1 end);
        Ret (sc2, outs ++ outs2)
      else Ret (sc1, outs).
    (** v2/xtemplate.go:324-489. *)
    Definition p_param (sc : stack) (t : loc) (p : param) : act (stack * list bytes) :=
      let v := TemplateModel.p_data p in
      if bool_decide (p_type p = MString) then Ret (sc, [v])
      else if bool_decide (p_type p = MComment) then Ret (sc, [])
      else if bool_decide (p_type p = MLanguage) then
        Ret (sc, match lg with Some l => [lget l v] | None => [] end)
      else if bool_decide (p_type p = MReference) then p_reference sc t (split_on ":"%char v)
      else if bool_decide (p_type p = MVariable) then
        match sc with
        | Some xs => d <~ p_string n xs v; Ret (sc, [d])
        | None => Ret (sc, [])
        end
      else if bool_decide (p_type p = MRange) then p_range sc t v
      else if bool_decide (p_type p = MCondition) then p_condition sc t v
      else if bool_decide (p_type p = MDump) then
        match sc with
        | Some (d :: _) => if bool_decide (v = B "dump" \/ v = B "list")
                           then s <~ read (fun h => show F ord n h true d); Ret (sc, [s]) else Ret (sc, [])
        | _ => Ret (sc, [])
        end
      else Ret (sc, [B "THE METALANGUAGE FROM OUTERSPACE IS NOT SUPPORTED: " ++ itoa (p_type p)]).
    (** v2/xtemplate.go:324-325. *)
    Fixpoint p_params (sc : stack) (t : loc) (ps : list param) : act (stack * list bytes) :=
      match ps with
      | [] => Ret (sc, [])
      | p :: ps' => '(sc1, a) <~ p_param sc t p; '(sc2, b) <~ p_params sc1 t ps'; Ret (sc2, a ++ b)
      end.
  End Body.
  (** v2/xtemplate.go:319-492. *)
  Fixpoint p_injector (n : nat) (lg : option lang) (sc : stack) (t : loc) : act (stack * bytes) :=
    match n with
    | O => Out
    | S n' =>
        match th !! t with
        | None => Fail
        | Some T =>
            match t_root T with
            | None => Ret (sc, B "Error, no template.Root compiled")
            | Some ps => '(sc1, outs) <~ p_params n' lg (p_injector n' lg) sc t ps; Ret (sc1, concat outs)
            end
        end
    end.
  (** v2/xtemplate.go:303-316. *)
  Definition p_execute (n : nat) (t : loc) (data : option loc) : act bytes :=
    match data with
    | None => '(_, out) <~ p_injector n None None t; Ret out
    | Some d =>
        r <~ read (fun h => dget n h d (B "#"));
        let lg := match r with Some (VOther k) => langs k | _ => None end in
        '(_, out) <~ p_injector n lg (Some [d]) t; Ret out
    end.
End Execute.
