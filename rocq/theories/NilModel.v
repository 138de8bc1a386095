(** * Datasets whose map is nil.

    XDataset is a map type (v2/xdataset.go:17), so [new(XDataset)] and [var d XDataset] are datasets with a nil map.  Reading,
    deleting from and ranging over a nil map is as on an empty one; a store panics.  Here such a dataset is an object [ODs ∅] whose
    address is in the set [N].  The functions below are those of DatasetModel.v and TemplateModel.v with the store replaced; the
    others (Get, Del, Clone, the typed getters, String) do not store into existing maps and are used as they are. *)
From Verif Require Import GoBase GoStrings LangModel DatasetModel TemplateModel.
Local Open Scope Z_scope.

(** Set: v2/xdataset.go:67-69, through wrappers v2/xdatasetts.go:38-42. *)
Definition nset (N : gset loc) (n : nat) (h : heap) (l : loc) (key : bytes) (v : value) : outcome heap :=
  on_dataset n h l (fun l' m => if decide (l' ∈ N) then Panic else Ok (<[l' := ODs (<[key := v]> m)]> h)).

(** ** Calls one after the other, with recovered panics, and the locks of the wrappers *)
Inductive call := CSet (k : bytes) (v : value) | CDel (k : bytes) | CGet (k : bytes).
Inductive answer := ADone | AGot (r : option value) | APanic | ABlocks.
Definition reading (c : call) : bool := match c with CGet _ => true | _ => false end.
(** [K]: the wrappers whose lock was never released.  Set and Del of the wrapper (v2/xdatasetts.go:38-42, 140-144) do not defer the
    release; the reads do (45-49 and the other getters).  Get with a simple key.  [None]: no fuel. *)
Fixpoint perform (N : gset loc) (n : nat) (h : heap) (K : gset loc) (l : loc) (c : call) : option (heap * gset loc * answer) :=
  match n with
  | O => None
  | S n' =>
      match h !! l with
      | Some (ODs m) =>
          Some (match c with
                | CSet k v => if decide (l ∈ N) then (h, K, APanic) else (<[l := ODs (<[k := v]> m)]> h, K, ADone)
                | CDel k => (<[l := ODs (delete k m)]> h, K, ADone)
                | CGet k => (h, K, AGot (m !! k))
                end)
      | Some (OTs d) =>
          if decide (l ∈ K) then Some (h, K, ABlocks)
          else match d with
               | None => Some (h, if reading c then K else {[l]} ∪ K, APanic)
               | Some d' =>
                   match perform N n' h K d' c with
                   | Some (h1, K1, a) => Some (h1, match a with APanic => if reading c then K1 else {[l]} ∪ K1 | _ => K1 end, a)
                   | None => None
                   end
               end
      | _ => Some (h, K, APanic)
      end
  end.
(** A call that waits for a lock for ever ends the history. *)
Fixpoint perform_all (N : gset loc) (n : nat) (h : heap) (K : gset loc) (cs : list (loc * call)) : option (heap * gset loc * list answer) :=
  match cs with
  | [] => Some (h, K, [])
  | (l, c) :: cs' =>
      match perform N n h K l c with
      | Some (h1, K1, ABlocks) => Some (h1, K1, [ABlocks])
      | Some (h1, K1, a) => match perform_all N n h1 K1 cs' with Some (h2, K2, r) => Some (h2, K2, a :: r) | None => None end
      | None => None
      end
  end.

(** ** Execution: v2/xtemplate.go:303-492, the store of line 411 replaced *)
Section Execute.
  Context (N : gset loc).
  Context (F : golib) (ord : heap -> gmap bytes value -> list (bytes * value)) (langs : nat -> option lang).
  Context (th : theap).
  Notation stack := (option (list loc)).
  Section Body.
    Context (n : nat) (lg : option lang).
    Context (inj : heap * stack -> loc -> outcome (heap * stack * bytes)).
    Notation istate := (heap * stack)%type.
    (** v2/xtemplate.go:392-418. *)
    Fixpoint nil_loop (k : nat) (i : Z) (st : istate) (t : loc) (subid : bytes) (subt cl : loc) : outcome (istate * list bytes) :=
      match k with
      | O => NoFuel
      | S k' =>
          c <-! ccount st.1 cl;
          if bool_decide (i < c) then
            r <-! try_names th n t ([dot subid (B "key." ++ itoa i)] ++
                               (if bool_decide (i = 0) then [dot subid (B "first")] else []) ++
                               (if bool_decide (i = c - 1) then [dot subid (B "last")] else []) ++
                               (if bool_decide (Z.rem i 2 = 0) then [dot subid (B "even")] else []));
            let tmp := match r with Some x => x | None => subt end in
            e <-! cget st.1 cl i;
            match e with
            | Some (Some d) =>
                h1 <-! nset N n st.1 d (B ".counter") (VInt KInt (i + 1));
                sc1 <-! spush st.2 d;
                '(st2, out) <-! inj (h1, sc1) tmp;
                sc3 <-! spop st2.2;
                '(st4, outs) <-! nil_loop k' (i + 1) (st2.1, sc3) t subid subt cl;
                Ok (st4, out :: outs)
            | _ => Panic
            end
          else Ok (st, [])
      end.
    (** v2/xtemplate.go:379-428. *)
    Definition nil_range (st : istate) (t : loc) (data : bytes) : outcome (istate * list bytes) :=
      let '(subdata, subid) := two_ids data in
      r <-! lookup_template th n t subid;
      match r, st.2 with
      | Some subt, Some xs =>
          cl <-! stack_collection n st.1 xs subdata;
          c <-! match cl with Some l => ccount st.1 l | None => Ok 0 end;
          match cl with
          | Some l =>
              if bool_decide (0 < c) then nil_loop n 0 st t subid subt l
              else tmp <-! try_names th n t [dot subid (B "none")];
                   run_on inj st (match tmp with Some x => x | None => subt end)
          | None => tmp <-! try_names th n t [dot subid (B "none")];
                    run_on inj st (match tmp with Some x => x | None => subt end)
          end
      | _, _ => Ok (st, [])
      end.
    (** v2/xtemplate.go:324-489, the switch. *)
    Definition nil_param (st : istate) (t : loc) (p : param) : outcome (istate * list bytes) :=
      if bool_decide (p_type p = MRange) then nil_range st t (p_data p) else do_param F ord th n lg inj st t p.
    Fixpoint nil_params (st : istate) (t : loc) (ps : list param) : outcome (istate * list bytes) :=
      match ps with
      | [] => Ok (st, [])
      | p :: ps' => '(st1, a) <-! nil_param st t p; '(st2, b) <-! nil_params st1 t ps'; Ok (st2, a ++ b)
      end.
  End Body.
  (** v2/xtemplate.go:319-492. *)
  Fixpoint nil_injector (n : nat) (lg : option lang) (st : heap * stack) (t : loc) : outcome (heap * stack * bytes) :=
    match n with
    | O => NoFuel
    | S n' =>
        match th !! t with
        | None => Panic
        | Some T =>
            match t_root T with
            | None => Ok (st, B "Error, no template.Root compiled")
            | Some ps => '(st1, outs) <-! nil_params n' lg (nil_injector n' lg) st t ps; Ok (st1, concat outs)
            end
        end
    end.
  (** v2/xtemplate.go:303-316. *)
  Definition nil_execute (n : nat) (h : heap) (t : loc) (data : option loc) : outcome (heap * bytes) :=
    match data with
    | None => '(st, out) <-! nil_injector n None (h, None) t; Ok (st.1, out)
    | Some d =>
        r <-! dget n h d (B "#");
        let lg := match r with Some (VOther k) => langs k | _ => None end in
        '(st, out) <-! nil_injector n lg (h, Some [d]) t; Ok (st.1, out)
    end.
End Execute.
