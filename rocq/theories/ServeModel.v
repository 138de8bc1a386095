(** * Executing templates on nested thread safe data, with the locks of the data (C127).

    The functions of TemplateModel.v (v2/xtemplate.go:303-492) once more, as in ParModel.v, now with the
    methods of the data as WaitModel.v has them: with all their accesses and lock operations.  The lock of
    a language (XLanguage.Get, one section that calls nothing) is left out. *)
From Verif Require Import GoBase GoStrings DatasetModel LangModel TemplateModel SnapModel TellModel WaitModel.
Local Open Scope Z_scope.
Notation "' p <~~ e ; f" := (pbind e (fun x => match x with p => f end)) (at level 100, p strict pattern, e at level 99, f at level 200, right associativity).

Section Execute.
  Context (F : golib) (ord : heap -> gmap bytes value -> list (bytes * value)) (langs : nat -> option lang).
  Context (th : theap).
  Notation stack := (option (list loc)).
  (** GetData on the stack, innermost first: one Get per dataset (v2/xdatasetcollection.go:79-87). *)
  Fixpoint s_search (n : nat) (back : list loc) (key : bytes) : prog (option value) :=
    match back with
    | [] => Done None
    | d :: back' => r <~~ w_get n d key; match r with Some v => Done (Some v) | None => s_search n back' key end
    end.
  (** The stack as a list (v2/xtemplate.go:311-312). *)
  Definition s_data (n : nat) (xs : list loc) (key : bytes) : prog (option value) := s_search n (reverse xs) key.
  (** GetDataString: v2/xdatasetcollection.go:90-98. *)
  Definition s_string (n : nat) (xs : list loc) (key : bytes) : prog bytes :=
    r <~~ s_data n xs key;
    match r with
    | None | Some VNil => Done []
    | Some v => w_value F (w_show F ord n) false v
    end.
  (** GetCollection: v2/xdatasetcollection.go:141-151; the type switch reads the kind of the object. *)
  Definition s_collection (n : nat) (xs : list loc) (key : bytes) : prog (option loc) :=
    r <~~ s_data n xs key; see (fun h => Done (r ≫= as_collection h)).
  (** A method of a nil stack panics: v2/xtemplate.go:339, 360. *)
  Definition s_non_nil {A} (sc : stack) (f : list loc -> prog A) : prog A := match sc with Some xs => f xs | None => Crash end.

  Section Body.
    Context (n : nat) (lg : option lang).
    Context (inj : stack -> loc -> prog (stack * bytes)).
    (** injector on a sub template, when there is one: v2/xtemplate.go:350-368. *)
    Definition s_run (sc : stack) (t : loc) : prog (stack * list bytes) := '(sc1, out) <~~ inj sc t; Done (sc1, [out]).
    Definition s_run_opt (sc : stack) (t : option loc) : prog (stack * list bytes) :=
      match t with Some t' => s_run sc t' | None => Done (sc, []) end.
    (** v2/xtemplate.go:334-373. *)
    Definition s_reference (sc : stack) (t : loc) (xid : list bytes) : prog (stack * list bytes) :=
      match xid with
      | [_; field; prefix] =>
          v <~~ s_non_nil sc (fun xs => s_string n xs field);
          r <~~ given (try_names th n t [prefix ++ v; prefix]);
          s_run_opt sc r
      | _ =>
          let template := match xid with x :: _ => x | [] => [] end in
          r <~~ given (lookup_template th n t template);
          match r with
          | None => Done (sc, [])
          | Some subt =>
              match xid with
              | [_; field] =>
                  v <~~ s_non_nil sc (fun xs => s_data n xs field);
                  d <~~ see (fun h => Done (v ≫= as_dataset h));
                  match d with
                  | Some d =>
                      sc1 <~~ given (spush sc d);
                      '(sc2, out) <~~ inj sc1 subt;
                      sc3 <~~ given (spop sc2);
                      Done (sc3, [out])
                  | None => s_run sc subt
                  end
              | _ => s_run sc subt
              end
          end
      end.
    (** v2/xtemplate.go:392-418; Count is called again for .last (line 401). *)
    Fixpoint s_loop (k : nat) (i : Z) (sc : stack) (t : loc) (subid : bytes) (subt cl : loc) : prog (stack * list bytes) :=
      match k with
      | O => Short
      | S k' =>
          c <~~ w_count cl;
          if bool_decide (i < c) then
            r1 <~~ given (try_names th n t ([dot subid (B "key." ++ itoa i)] ++ (if bool_decide (i = 0) then [dot subid (B "first")] else [])));
            r <~~ match r1 with
                 | Some x => Done (Some x)
                 | None => c2 <~~ w_count cl;
                           given (try_names th n t ((if bool_decide (i = c2 - 1) then [dot subid (B "last")] else []) ++
                                                   (if bool_decide (Z.rem i 2 = 0) then [dot subid (B "even")] else [])))
                 end;
            let tmp := match r with Some x => x | None => subt end in
            e <~~ w_elem cl i;
            match e with
            | Some (Some d) =>
                _ <~~ w_set n d (B ".counter") (VInt KInt (i + 1));
                sc1 <~~ given (spush sc d);
                '(sc2, out) <~~ inj sc1 tmp;
                sc3 <~~ given (spop sc2);
                '(sc4, outs) <~~ s_loop k' (i + 1) sc3 t subid subt cl;
                Done (sc4, out :: outs)
            | _ => Crash
            end
          else Done (sc, [])
      end.
    (** v2/xtemplate.go:379-428. *)
    Definition s_range (sc : stack) (t : loc) (data : bytes) : prog (stack * list bytes) :=
      let '(subdata, subid) := two_ids data in
      r <~~ given (lookup_template th n t subid);
      match r, sc with
      | Some subt, Some xs =>
          cl <~~ s_collection n xs subdata;
          c <~~ match cl with Some l => w_count l | None => Done 0 end;
          match cl with
          | Some l =>
              if bool_decide (0 < c) then s_loop n 0 sc t subid subt l
              else tmp <~~ given (try_names th n t [dot subid (B "none")]);
                   s_run sc (match tmp with Some x => x | None => subt end)
          | None => tmp <~~ given (try_names th n t [dot subid (B "none")]);
                    s_run sc (match tmp with Some x => x | None => subt end)
          end
      | _, _ => Done (sc, [])
      end.
    (** v2/xtemplate.go:429-475. *)
    Definition s_condition (sc : stack) (t : loc) (data : bytes) : prog (stack * list bytes) :=
      let '(subdata, subid) := two_ids data in
      subt <~~ given (lookup_template th n t subid);
      value <~~ match sc with
               | Some xs => r <~~ s_data n xs subdata; Done (match r with Some v => v | None => VNil end)
               | None => Done VNil
               end;
      '(sc1, outs, subt1) <~~
        match subt with
        | Some s =>
            if is_nil value then Done (sc, [], subt)
            else
              d <~~ see (fun h => Done (as_dataset h value));
              match d with
              | Some d =>
                  sc1 <~~ given (spush sc d);
                  tmp <~~ given (lookup_template th n t (dot subid (B "array")));
                  let s' := match tmp with Some x => x | None => s end in
                  '(sc2, out) <~~ inj sc1 s';
                  sc3 <~~ given (spop sc2);
                  Done (sc3, [out], Some s')
              | None =>
                  svalue <~~ w_value F (w_show F ord n) false value;
                  match svalue with
                  | [] => Done (sc, [], subt)
                  | _ => tmp <~~ given (lookup_template th n t (dot subid svalue));
                         let s' := match tmp with Some x => x | None => s end in
                         '(sc2, out) <~~ inj sc s';
                         Done (sc2, [out], Some s')
                  end
              end
        | None => Done (sc, [], subt)
        end;
      empty <~~ (if is_nil value then Done true
                else (s <~~ w_value F (w_show F ord n) false value; Done (match s with [] => true | _ => false end)));
      if (empty : bool) then
        tmp <~~ given (lookup_template th n t (dot subid (B "none")));
        '(sc2, outs2) <~~ s_run_opt sc1 (match tmp with Some x => Some x | None => subt1 end);
        Done (sc2, outs ++ outs2)
      else Done (sc1, outs).
    (** v2/xtemplate.go:324-489. *)
    Definition s_param (sc : stack) (t : loc) (p : param) : prog (stack * list bytes) :=
      let v := p_data p in
      if bool_decide (p_type p = MString) then Done (sc, [v])
      else if bool_decide (p_type p = MComment) then Done (sc, [])
      else if bool_decide (p_type p = MLanguage) then
        Done (sc, match lg with Some l => [lget l v] | None => [] end)
      else if bool_decide (p_type p = MReference) then s_reference sc t (split_on ":"%char v)
      else if bool_decide (p_type p = MVariable) then
        match sc with
        | Some xs => d <~~ s_string n xs v; Done (sc, [d])
        | None => Done (sc, [])
        end
      else if bool_decide (p_type p = MRange) then s_range sc t v
      else if bool_decide (p_type p = MCondition) then s_condition sc t v
      else if bool_decide (p_type p = MDump) then
        match sc with
        | Some (d :: _) => if bool_decide (v = B "dump" \/ v = B "list")
                           then s <~~ w_show F ord n true d; Done (sc, [s]) else Done (sc, [])
        | _ => Done (sc, [])
        end
      else Done (sc, [B "THE METALANGUAGE FROM OUTERSPACE IS NOT SUPPORTED: " ++ itoa (p_type p)]).
    (** v2/xtemplate.go:324-325. *)
    Fixpoint s_params (sc : stack) (t : loc) (ps : list param) : prog (stack * list bytes) :=
      match ps with
      | [] => Done (sc, [])
      | p :: ps' => '(sc1, a) <~~ s_param sc t p; '(sc2, b) <~~ s_params sc1 t ps'; Done (sc2, a ++ b)
      end.
  End Body.
  (** v2/xtemplate.go:319-492. *)
  Fixpoint s_injector (n : nat) (lg : option lang) (sc : stack) (t : loc) : prog (stack * bytes) :=
    match n with
    | O => Short
    | S n' =>
        match th !! t with
        | None => Crash
        | Some T =>
            match t_root T with
            | None => Done (sc, B "Error, no template.Root compiled")
            | Some ps => '(sc1, outs) <~~ s_params n' lg (s_injector n' lg) sc t ps; Done (sc1, concat outs)
            end
        end
    end.
  (** v2/xtemplate.go:303-316. *)
  Definition s_execute (n : nat) (t : loc) (data : option loc) : prog bytes :=
    match data with
    | None => '(_, out) <~~ s_injector n None None t; Done out
    | Some d =>
        r <~~ w_get n d (B "#");
        let lg := match r with Some (VOther k) => langs k | _ => None end in
        '(_, out) <~~ s_injector n lg (Some [d]) t; Done out
    end.
End Execute.
