(** * XDataset, XDatasetTS, XDatasetCollection and XDatasetCollectionTS (v2/xdataset*.go)
    used by one thread, over an explicit heap.

    Objects are referred to by their location; an interface value holding a pointer to an
    object is [VRef l].  Simplifications: maps are never nil ([&XDataset{}] or what
    NewXDataset returns, not [new(XDataset)]); no typed nil pointers; the only
    implementations of XDatasetDef and XDatasetCollectionDef are the four of the package;
    other values (structs, channels, functions, languages, templates…) are opaque.  The
    locks are modelled in LockInst.v, not here. *)
From Coq Require Import SpecFloat.
From Verif Require Import GoBase GoStrings.
Local Open Scope Z_scope.

Notation loc := positive.

(** The integer types; [byte] is [uint8], [rune] is [int32]; int is 64 bits wide. *)
Inductive ikind := KInt | KInt8 | KInt16 | KInt32 | KInt64 | KUint | KUint8 | KUint16 | KUint32 | KUint64.
(** time.Time: seconds since 1 January of year 1 UTC, nanoseconds, and the rest (location,
    monotonic reading), which is not compared by [Equal] with the zero time. *)
Record gotime := GoTime { t_sec : Z; t_nsec : Z; t_rest : nat }.
Definition zero_time : gotime := GoTime 0 0 0.

(** An interface{} (v2/xdataset.go:17). *)
Inductive value :=
| VNil
| VBool (b : bool)
| VInt (k : ikind) (z : Z)
| VFloat32 (f : spec_float)
| VFloat64 (f : spec_float)
| VStr (s : bytes)
| VTime (t : gotime)
| VStrs (l : list bytes)
| VBools (l : list bool)
| VInts (l : list Z)
| VFloats (l : list spec_float)
| VTimes (l : list gotime)
| VRef (l : loc)
| VOther (n : nat).

(** The four types: v2/xdataset.go:17, v2/xdatasetts.go:10-13, v2/xdatasetcollection.go:14,
    v2/xdatasetcollectionts.go:11-14. *)
Inductive obj :=
| ODs (m : gmap bytes value)               (* *XDataset *)
| OTs (d : option loc)                     (* *XDatasetTS and its field data; None: nil *)
| OColl (xs : list (option loc))           (* *XDatasetCollection; None: a nil element *)
| OCollTS (xs : list (option loc)).        (* *XDatasetCollectionTS *)
Notation heap := (gmap loc obj).

(** What package fmt, package time and the floating point unit do on values that are not
    described further: texts of floats, times and opaque values with %v and of every value
    that is not one of our objects with %#v; [int] of a float out of range. *)
Record golib := GoLib {
  f32_text : spec_float -> bytes;
  f64_text : spec_float -> bytes;
  time_text : gotime -> bytes;
  other_text : nat -> bytes;
  go_text : value -> bytes;
  big_float : spec_float -> Z
}.

(** The type switches [v.(XDatasetDef)] and [v.(XDatasetCollectionDef)], for instance v2/xdataset.go:79, 82. *)
Definition as_dataset (h : heap) (v : value) : option loc :=
  match v with
  | VRef l => match h !! l with Some (ODs _) | Some (OTs _) => Some l | _ => None end
  | _ => None
  end.
Definition as_collection (h : heap) (v : value) : option loc :=
  match v with
  | VRef l => match h !! l with Some (OColl _) | Some (OCollTS _) => Some l | _ => None end
  | _ => None
  end.

(** ** Collections: xdatasetcollection.go and, with the same statements between the lock
    operations, xdatasetcollectionts.go *)
(** The slice: v2/xdatasetcollection.go:14, v2/xdatasetcollectionts.go:11-14. *)
Definition elements (h : heap) (c : loc) : option (list (option loc)) :=
  match h !! c with Some (OColl xs) | Some (OCollTS xs) => Some xs | _ => None end.
Definition set_elements (h : heap) (c : loc) (xs : list (option loc)) : heap :=
  match h !! c with
  | Some (OColl _) => <[c := OColl xs]> h
  | Some (OCollTS _) => <[c := OCollTS xs]> h
  | _ => h
  end.
(** Unshift: v2/xdatasetcollection.go:42-44, v2/xdatasetcollectionts.go:34-38. *)
Definition cunshift (h : heap) (c : loc) (d : option loc) : outcome heap :=
  match elements h c with Some xs => Ok (set_elements h c ([d] ++ xs)) | None => Panic end.
(** Shift: v2/xdatasetcollection.go:47-51, v2/xdatasetcollectionts.go:41-47; indexing with 0 panics on an empty slice. *)
Definition cshift (h : heap) (c : loc) : outcome (heap * option loc) :=
  match elements h c with
  | Some xs => match xs !! 0%nat with Some d => Ok (set_elements h c (drop 1 xs), d) | None => Panic end
  | None => Panic
  end.
(** Push: v2/xdatasetcollection.go:54-56, v2/xdatasetcollectionts.go:50-54. *)
Definition cpush (h : heap) (c : loc) (d : option loc) : outcome heap :=
  match elements h c with Some xs => Ok (set_elements h c (xs ++ [d])) | None => Panic end.
(** Pop: v2/xdatasetcollection.go:59-63, v2/xdatasetcollectionts.go:57-63; index [len-1] is negative on an empty slice. *)
Definition cpop (h : heap) (c : loc) : outcome (heap * option loc) :=
  match elements h c with
  | Some xs =>
      let i := Z.of_nat (length xs) - 1 in
      if bool_decide (i < 0) then Panic
      else match xs !! Z.to_nat i with Some d => Ok (set_elements h c (take (Z.to_nat i) xs), d) | None => Panic end
  | None => Panic
  end.
(** Count: v2/xdatasetcollection.go:66-68, v2/xdatasetcollectionts.go:66-70. *)
Definition ccount (h : heap) (c : loc) : outcome Z :=
  match elements h c with Some xs => Ok (Z.of_nat (length xs)) | None => Panic end.
(** Get: v2/xdatasetcollection.go:71-76, v2/xdatasetcollectionts.go:73-80; [None] is (nil,false). *)
Definition cget (h : heap) (c : loc) (i : Z) : outcome (option (option loc)) :=
  match elements h c with
  | Some xs =>
      if bool_decide (i < 0) || bool_decide (Z.of_nat (length xs) <= i) then Ok None
      else match xs !! Z.to_nat i with Some d => Ok (Some d) | None => Panic end
  | None => Panic
  end.

(** ** XDataset.Get (v2/xdataset.go:72-102) and XDatasetTS.Get (v2/xdatasetts.go:45-49).
    [None] is (nil,false).  One unit of fuel per nested call of Get. *)
(** The separator [">"], v2/xdataset.go:73. *)
Definition gt : ascii := byte 62.
Fixpoint dget (n : nat) (h : heap) (l : loc) (key : bytes) : outcome (option value) :=
  match n with
  | O => NoFuel
  | S n' =>
      match h !! l with
      | Some (OTs (Some d)) => dget n' h d key
      | Some (ODs m) =>
          let literal := Ok (m !! key) in                                  (* 97-101 *)
          match split_on gt key with
          | x0 :: x1 :: rest =>                                            (* 73-74: len(xid) > 1 *)
              match m !! x0 with
              | None => Ok None                                            (* 75-78 *)
              | Some subset =>
                  match as_dataset h subset with
                  | Some ds => dget n' h ds (join [gt] (x1 :: rest))       (* 79-81 *)
                  | None =>
                      match as_collection h subset with
                      | Some dsc =>                                        (* 82-95 *)
                          match atoi x1 with
                          | None => Ok None
                          | Some entry =>
                              e <-! cget h dsc entry;
                              match e with
                              | Some (Some ds) =>
                                  match rest with
                                  | [] => Ok (Some (VRef ds))
                                  | _ => dget n' h ds (join [gt] rest)
                                  end
                              | _ => Ok None
                              end
                          end
                      | None => literal
                      end
                  end
              end
          | _ => literal
          end
      | _ => Panic
      end
  end.

(** Call of a method of XDatasetTS: [ds.data.Method(...)] (v2/xdatasetts.go:24-153), down to
    the XDataset; a nil interface panics. *)
Fixpoint on_dataset {A} (n : nat) (h : heap) (l : loc) (f : loc -> gmap bytes value -> outcome A) : outcome A :=
  match n with
  | O => NoFuel
  | S n' =>
      match h !! l with
      | Some (ODs m) => f l m
      | Some (OTs (Some d)) => on_dataset n' h d f
      | _ => Panic
      end
  end.
(** Set: v2/xdataset.go:67-69, v2/xdatasetts.go:38-42.  Del: v2/xdataset.go:378-380, v2/xdatasetts.go:140-144. *)
Definition dset (n : nat) (h : heap) (l : loc) (key : bytes) (v : value) : outcome heap :=
  on_dataset n h l (fun l' m => Ok (<[l' := ODs (<[key := v]> m)]> h)).
Definition ddel (n : nat) (h : heap) (l : loc) (key : bytes) : outcome heap :=
  on_dataset n h l (fun l' m => Ok (<[l' := ODs (delete key m)]> h)).

(** ** Conversions of the typed getters *)
(** [int(x)] for an integer x, v2/xdataset.go:204-233; two's complement. *)
Definition wrap64 (z : Z) : Z := (z + 2 ^ 63) mod 2 ^ 64 - 2 ^ 63.
(** time.Time.Unix (v2/xdataset.go:245, 303): seconds since 1970, 64 bit arithmetic. *)
Definition unix (t : gotime) : Z := wrap64 (t_sec t - 62135596800).
(** [val2.Equal(time.Time{})], v2/xdataset.go:144, 242, 300. *)
Definition is_zero_time (t : gotime) : bool := bool_decide (t_sec t = 0 /\ t_nsec t = 0).
(** [val2 != 0] for floats, v2/xdataset.go:181, 184. *)
Definition is_zero_float (f : spec_float) : bool := match f with S754_zero _ => true | _ => false end.
(** [int(f)], v2/xdataset.go:236, 239: truncation; out of range, NaN and infinities are implementation specific. *)
Definition trunc_float (f : spec_float) : option Z :=
  match f with
  | S754_zero _ => Some 0
  | S754_finite s m e =>
      let a := if bool_decide (0 <= e) then Zpos m * 2 ^ e else Zpos m / 2 ^ (- e) in
      Some (if s then - a else a)
  | _ => None
  end.
Definition int_of_float (F : golib) (f : spec_float) : Z :=
  match trunc_float f with
  | Some z => if bool_decide (min_int <= z <= max_int) then z else big_float F f
  | None => big_float F f
  end.
(** [float64(z)], v2/xdataset.go:261-290: round to nearest, ties to even. *)
Definition float_of_int (z : Z) : spec_float := binary_normalize 53 1024 z 0 false.
(** [float64(f)] for a float32, v2/xdataset.go:294. *)
Definition widen (f : spec_float) : spec_float :=
  match f with
  | S754_finite s m e => binary_normalize 53 1024 (cond_Zopp s (Zpos m)) e s
  | _ => f
  end.

(** GetBool, v2/xdataset.go:138-189. *)
Definition bool_of (v : value) : bool :=
  match v with
  | VBool b => b
  | VTime t => negb (is_zero_time t)
  | VInt _ z => bool_decide (z <> 0)
  | VFloat32 f | VFloat64 f => negb (is_zero_float f)
  | VNil => false
  | _ => true
  end.
(** GetInt, v2/xdataset.go:194-249. *)
Definition int_of (F : golib) (v : value) : option Z :=
  match v with
  | VBool b => Some (if b then 1 else 0)
  | VInt _ z => Some (wrap64 z)
  | VFloat32 f | VFloat64 f => Some (int_of_float F f)
  | VTime t => Some (if is_zero_time t then 0 else unix t)
  | _ => None
  end.
(** GetFloat, v2/xdataset.go:252-307. *)
Definition float_of (v : value) : option spec_float :=
  match v with
  | VBool b => Some (float_of_int (if b then 1 else 0))
  | VInt _ z => Some (float_of_int z)
  | VFloat32 f => Some (widen f)
  | VFloat64 f => Some f
  | VTime t => Some (if is_zero_time t then S754_zero false else float_of_int (unix t))
  | _ => None
  end.
(** The type assertions of GetTime and of the collection getters: v2/xdataset.go:312, 323, 334, 345, 358, 370. *)
Definition time_of (v : value) : option gotime := match v with VTime t => Some t | _ => None end.
Definition strs_of (v : value) : option (list bytes) := match v with VStrs l => Some l | _ => None end.
Definition bools_of (v : value) : option (list bool) := match v with VBools l => Some l | _ => None end.
Definition ints_of (v : value) : option (list Z) := match v with VInts l => Some l | _ => None end.
Definition floats_of (v : value) : option (list spec_float) := match v with VFloats l => Some l | _ => None end.
Definition times_of (v : value) : option (list gotime) := match v with VTimes l => Some l | _ => None end.

(** ** Printing *)
Section Print.
  Context (F : golib).
  (** The order in which Go iterates a map; it may differ from one iteration to the next. *)
  Context (ord : heap -> gmap bytes value -> list (bytes * value)).
  (** fmt: slices and booleans. *)
  Definition spaced (l : list bytes) : bytes := B "[" ++ join (B " ") l ++ B "]".
  Definition bool_text (b : bool) : bytes := if b then B "true" else B "false".
  (** fmt.Sprint / %v of a value that is not one of our objects. *)
  Definition plain_text (v : value) : bytes :=
    match v with
    | VNil => B "<nil>"
    | VBool b => bool_text b
    | VInt _ z => itoa z
    | VFloat32 f => f32_text F f
    | VFloat64 f => f64_text F f
    | VStr s => s
    | VTime t => time_text F t
    | VStrs l => spaced l
    | VBools l => spaced (map bool_text l)
    | VInts l => spaced (map itoa l)
    | VFloats l => spaced (map (f64_text F) l)
    | VTimes l => spaced (map (time_text F) l)
    | VOther k => other_text F k
    | VRef _ => []
    end.
  (** fmt recovers from a panic of String or GoString. *)
  Definition panic_text (go : bool) : bytes :=
    B (if go then "%!v(PANIC=GoString method: runtime error: invalid memory address or nil pointer dereference)"
       else "%!v(PANIC=String method: runtime error: invalid memory address or nil pointer dereference)").
  (** One %v or %#v of a value: v2/xdataset.go:50, 60, v2/xdatasetcollection.go:30. *)
  Definition show_value (show : bool -> loc -> outcome bytes) (go : bool) (v : value) : outcome bytes :=
    match v with
    | VRef l => match show go l with Panic => Ok (panic_text go) | x => x end
    | _ => Ok (if go then go_text F v else plain_text v)
    end.
  (** The loop v2/xdataset.go:49-51, 59-61. *)
  Fixpoint show_entries (f : value -> outcome bytes) (l : list (bytes * value)) : outcome (list bytes) :=
    match l with
    | [] => Ok []
    | (k, v) :: l' => t <-! f v; ts <-! show_entries f l'; Ok ((k ++ B ":" ++ t) :: ts)
    end.
  (** The loop v2/xdatasetcollection.go:29-31, v2/xdatasetcollectionts.go:20-24. *)
  Fixpoint show_elements (f : value -> outcome bytes) (i : Z) (xs : list (option loc)) : outcome bytes :=
    match xs with
    | [] => Ok []
    | x :: xs' =>
        t <-! f (match x with Some l => VRef l | None => VNil end);
        ts <-! show_elements f (i + 1) xs';
        Ok (itoa i ++ B ":" ++ t ++ B " " ++ ts)
    end.
  (** String ([go = false]) and GoString ([go = true]): v2/xdataset.go:47-64, v2/xdatasetts.go:24-35, v2/xdatasetcollection.go:28-39, v2/xdatasetcollectionts.go:17-31. *)
  Fixpoint show (n : nat) (h : heap) (go : bool) (l : loc) : outcome bytes :=
    match n with
    | O => NoFuel
    | S n' =>
        match h !! l with
        | Some (ODs m) =>
            sdata <-! show_entries (show_value (show n' h) go) (ord h m);
            Ok (B (if go then "#xcore.XDataset{" else "xcore.XDataset{") ++ join (B " ") (sort_strings sdata) ++ B "}")
        | Some (OTs (Some d)) => show n' h go d
        | Some (OTs None) => Panic
        | Some (OColl xs) =>
            t <-! show_elements (show_value (show n' h) false) 0 xs; Ok (B "XDatasetCollection[" ++ t ++ B "]")
        | Some (OCollTS xs) =>
            t <-! show_elements (show_value (show n' h) false) 0 xs; Ok (B "XDatasetCollectionTS[" ++ t ++ B "]")
        | None => Panic
        end
    end.
  (** fmt.Sprint. *)
  Definition sprint (n : nat) (h : heap) (v : value) : outcome bytes := show_value (show n h) false v.

  (** ** The getters of XDataset; each method of XDatasetTS calls the same method of its
      data (v2/xdatasetts.go:45-137).  Lines on the right: v2/xdataset.go. *)
  Definition typed {A} (n : nat) (h : heap) (l : loc) (key : bytes) (conv : value -> option A) (zero : A) : outcome (A * bool) :=
    on_dataset n h l (fun l' _ =>
      r <-! dget n h l' key;
      Ok (match r with
          | Some v => match conv v with Some a => (a, true) | None => (zero, false) end
          | None => (zero, false)
          end)).
  Definition get_dataset n h l key := typed n h l key (fun v => Some <$> as_dataset h v) None.          (* 105-112 *)
  Definition get_collection n h l key := typed n h l key (fun v => Some <$> as_collection h v) None.    (* 115-122 *)
  Definition get_string (n : nat) (h : heap) (l : loc) (key : bytes) : outcome (bytes * bool) :=        (* 125-133 *)
    on_dataset n h l (fun l' _ =>
      r <-! dget n h l' key;
      match r with
      | Some VNil => Ok ([], true)
      | Some v => t <-! sprint n h v; Ok (t, true)
      | None => Ok ([], false)
      end).
  Definition get_bool n h l key := typed n h l key (fun v => Some (bool_of v)) false.                    (* 138-189 *)
  Definition get_int n h l key := typed n h l key (int_of F) 0.                                          (* 194-249 *)
  Definition get_float n h l key := typed n h l key float_of (S754_zero false).                          (* 252-307 *)
  Definition get_time n h l key := typed n h l key time_of zero_time.                                    (* 310-318 *)
  Definition get_strings n h l key := typed n h l key strs_of [].                                        (* 321-329 *)
  Definition get_bools n h l key := typed n h l key bools_of [].                                         (* 332-340 *)
  Definition get_ints n h l key := typed n h l key ints_of [].                                           (* 343-351 *)
  Definition get_floats n h l key := typed n h l key floats_of [].                                       (* 356-365 *)
  Definition get_times n h l key := typed n h l key times_of [].                                         (* 368-375 *)

  (** ** The getters of the collections *)
  (** GetData: v2/xdatasetcollection.go:79-87, v2/xdatasetcollectionts.go:83-97; a call on a nil
      element panics.  [back] is the list of the elements still to visit, last one first. *)
  Fixpoint search (n : nat) (h : heap) (back : list (option loc)) (key : bytes) : outcome (option value) :=
    match back with
    | [] => Ok None
    | None :: _ => Panic
    | Some d :: back' =>
        r <-! dget n h d key;
        match r with Some v => Ok (Some v) | None => search n h back' key end
    end.
  Definition cget_data (n : nat) (h : heap) (c : loc) (key : bytes) : outcome (option value) :=
    match elements h c with Some xs => search n h (reverse xs) key | None => Panic end.
  (** GetDataString: v2/xdatasetcollection.go:90-98 (nil gives ""), v2/xdatasetcollectionts.go:100-106. *)
  Definition cget_string (n : nat) (h : heap) (c : loc) (key : bytes) : outcome (bytes * bool) :=
    r <-! cget_data n h c key;
    match r, h !! c with
    | None, _ => Ok ([], false)
    | Some VNil, Some (OColl _) => Ok ([], true)
    | Some v, _ => t <-! sprint n h v; Ok (t, true)
    end.
  (** The common part of the typed getters, v2/xdatasetcollection.go:101-138. *)
  Definition ctyped {A} (n : nat) (h : heap) (c : loc) (key : bytes) (conv : value -> option A) (zero : A) : outcome (A * bool) :=
    r <-! cget_data n h c key;
    Ok (match r with
        | Some v => match conv v with Some a => (a, true) | None => (zero, false) end
        | None => (zero, false)
        end).
  (** GetDataBool, Int, Float, Time: exact types only (v2/xdatasetcollection.go:101-138,
      v2/xdatasetcollectionts.go:109-146). *)
  Definition cget_bool n h c key := ctyped n h c key (fun v => match v with VBool b => Some b | _ => None end) false.
  Definition cget_int n h c key := ctyped n h c key (fun v => match v with VInt KInt z => Some z | _ => None end) 0.
  Definition cget_float n h c key := ctyped n h c key (fun v => match v with VFloat64 f => Some f | _ => None end) (S754_zero false).
  Definition cget_time n h c key := ctyped n h c key time_of zero_time.
  (** GetCollection: v2/xdatasetcollection.go:141-151 (checked), v2/xdatasetcollectionts.go:149-156
      (the type assertion panics). *)
  Definition cget_collection (n : nat) (h : heap) (c : loc) (key : bytes) : outcome (option loc) :=
    r <-! cget_data n h c key;
    match r with
    | None => Ok None
    | Some v =>
        match as_collection h v with
        | Some x => Ok (Some x)
        | None => match h !! c with Some (OColl _) => Ok None | _ => Panic end
        end
    end.
End Print.

(** ** Clone: v2/xdataset.go:383-397, v2/xdatasetts.go:147-153, v2/xdatasetcollection.go:154-160,
    v2/xdatasetcollectionts.go:159-165 *)
(** [&XDataset{}] and the like. *)
Definition alloc (h : heap) (o : obj) : heap * loc := let l := fresh (dom h) in (<[l := o]> h, l).
Section Clone.
  Context (ord : heap -> gmap bytes value -> list (bytes * value)).
  Section Body.
    Context (clone_obj : heap -> loc -> outcome (heap * loc)).
    (** v2/xdataset.go:384-396; [cloned.Set(id, clonedval)]. *)
    Fixpoint clone_entries (l : list (bytes * value)) (h : heap) (m' : gmap bytes value) : outcome (heap * gmap bytes value) :=
      match l with
      | [] => Ok (h, m')
      | (k, v) :: l' =>
          match v with
          | VRef r => '(h', r') <-! clone_obj h r; clone_entries l' h' (<[k := VRef r']> m')
          | _ => clone_entries l' h (<[k := v]> m')
          end
      end.
    (** v2/xdatasetcollection.go:156-158, v2/xdatasetcollectionts.go:161-163. *)
    Fixpoint clone_elements (xs : list (option loc)) (h : heap) (ys : list (option loc)) : outcome (heap * list (option loc)) :=
      match xs with
      | [] => Ok (h, ys)
      | None :: _ => Panic
      | Some r :: xs' => '(h', r') <-! clone_obj h r; clone_elements xs' h' (ys ++ [Some r'])
      end.
  End Body.
  (** The new object is filled while nobody else can see it; the model stores its content
      at the end. *)
  Fixpoint clone (n : nat) (h : heap) (l : loc) : outcome (heap * loc) :=
    match n with
    | O => NoFuel
    | S n' =>
        match h !! l with
        | Some (ODs m) =>
            let '(h1, c) := alloc h (ODs ∅) in
            '(h2, m') <-! clone_entries (clone n') (ord h m) h1 ∅;
            Ok (<[c := ODs m']> h2, c)
        | Some (OTs d) =>
            let '(h1, c) := alloc h (OTs None) in
            match d with
            | None => Panic
            | Some d => '(h2, d') <-! clone n' h1 d; Ok (<[c := OTs (Some d')]> h2, c)
            end
        | Some (OColl xs) =>
            let '(h1, c) := alloc h (OColl []) in
            '(h2, ys) <-! clone_elements (clone n') xs h1 [];
            Ok (<[c := OColl ys]> h2, c)
        | Some (OCollTS xs) =>
            let '(h1, c) := alloc h (OCollTS []) in
            '(h2, ys) <-! clone_elements (clone n') xs h1 [];
            Ok (<[c := OCollTS ys]> h2, c)
        | None => Panic
        end
    end.
End Clone.

(** ** NewXDataset (v2/xdataset.go:20-44) and NewXDatasetCollection (v2/xdatasetcollection.go:17-24).  The argument is a finite nested Go value; a map is listed in the order in which
    Go iterates it. *)
Inductive gval :=
| GLeaf (v : value)
| GMap (m : list (bytes * gval))             (* map[string]interface{} *)
| GMaps (l : list (list (bytes * gval)))     (* []map[string]interface{} *)
| GList (l : list gval).                     (* []interface{} *)

Section NewFix.
  Context (new_value : heap -> gval -> heap * value).
  (** The loop over the map (v2/xdataset.go:23-42), filling the dataset. *)
  Fixpoint new_entries (l : list (bytes * gval)) (h : heap) (m : gmap bytes value) : heap * gmap bytes value :=
    match l with
    | [] => (h, m)
    | (k, g) :: l' => let '(h', v) := new_value h g in new_entries l' h' (<[k := v]> m)
    end.
  (** v2/xdataset.go:20-44. *)
  Definition new_dataset_ (h : heap) (l : list (bytes * gval)) : heap * loc :=
    let '(h1, c) := alloc h (ODs ∅) in
    let '(h2, m) := new_entries l h1 ∅ in
    (<[c := ODs m]> h2, c).
  (** v2/xdatasetcollection.go:20-22. *)
  Fixpoint new_maps (l : list (list (bytes * gval))) (h : heap) (xs : list (option loc)) : heap * list (option loc) :=
    match l with
    | [] => (h, xs)
    | m :: l' => let '(h', d) := new_dataset_ h m in new_maps l' h' (xs ++ [Some d])
    end.
  (** v2/xdataset.go:27-33: elements that are not maps are dropped. *)
  Fixpoint new_list (l : list gval) (h : heap) (xs : list (option loc)) : heap * list (option loc) :=
    match l with
    | [] => (h, xs)
    | GMap m :: l' => let '(h', d) := new_dataset_ h m in new_list l' h' (xs ++ [Some d])
    | _ :: l' => new_list l' h xs
    end.
End NewFix.
(** The switch v2/xdataset.go:24-41. *)
Fixpoint new_value (h : heap) (g : gval) {struct g} : heap * value :=
  match g with
  | GList l =>
      let '(h1, c) := alloc h (OColl []) in
      let '(h2, xs) := new_list new_value l h1 [] in
      (<[c := OColl xs]> h2, VRef c)
  | GMaps l =>
      let '(h1, c) := alloc h (OColl []) in
      let '(h2, xs) := new_maps new_value l h1 [] in
      (<[c := OColl xs]> h2, VRef c)
  | GMap m => let '(h', d) := new_dataset_ new_value h m in (h', VRef d)
  | GLeaf v => (h, v)
  end.
Definition new_dataset (h : heap) (m : list (bytes * gval)) : heap * loc := new_dataset_ new_value h m.
(** v2/xdatasetcollection.go:17-24. *)
Definition new_collection (h : heap) (l : list (list (bytes * gval))) : heap * loc :=
  let '(h1, c) := alloc h (OColl []) in
  let '(h2, xs) := new_maps new_value l h1 [] in
  (<[c := OColl xs]> h2, c).
