(** * The tests of v2/xdataset_test.go and v2/xdatasetts_test.go, replayed on the model (see
    TestsCache.v).  [ts = true]: the same test on NewXDatasetTS of the same data
    (v2/xdatasetts_test.go repeats every test of v2/xdataset_test.go but TestXDataset_new).
    [go1] contains what fmt printed for the floats and times of the tests, and int() of a
    float out of range on the machine where the tests were run. *)
From Coq Require Import SpecFloat.
From Verif Require Import GoBase GoStrings DatasetModel.
Local Open Scope Z_scope.

Definition f3568 : spec_float := (S754_finite false 7847544340925645 (-41)).    (* 3568.65 *)
Definition fpi7 : spec_float := (S754_finite false 7074237856534935 (-51)).     (* 3.1415927 *)
Definition fpi : spec_float := (S754_finite false 7074237752028440 (-51)).      (* math.Pi *)
Definition fmax : spec_float := (S754_finite false 9007199254740991 (971)).     (* math.MaxFloat64 *)
Definition fmin : spec_float := (S754_finite false 1 (-1074)).     (* math.SmallestNonzeroFloat64 *)
Definition fmax32 : spec_float := (S754_finite false 9007198717870080 (75)).   (* math.MaxFloat32, as a float64 *)
Definition fmin32 : spec_float := (S754_finite false 4503599627370496 (-201)).   (* math.SmallestNonzeroFloat32, as a float64 *)
Definition f1 : spec_float := (S754_finite false 4503599627370496 (-52)).
(** float32(1). *)
Definition g1 : spec_float := S754_finite false 8388608 (-23).
(** 2020-01-01T12:00:00Z. *)
Definition tmp : gotime := GoTime 63713476800 0 0.
Definition pick {A} (eqb : A -> A -> bool) (l : list (A * bytes)) (x : A) : bytes :=
  match List.find (fun p => eqb p.1 x) l with Some p => p.2 | None => B "?" end.
Definition same_float (a b : spec_float) : bool :=
  match a, b with
  | S754_zero s, S754_zero t => Bool.eqb s t
  | S754_finite s m e, S754_finite t n f => Bool.eqb s t && Pos.eqb m n && Z.eqb e f
  | _, _ => false
  end.
Definition float_text : spec_float -> bytes :=
  pick same_float [(S754_zero false, B "0"); (f1, B "1"); (f3568, B "3568.65"); (fpi7, B "3.1415927");
                   (fpi, B "3.141592653589793"); (fmax, B "1.7976931348623157e+308")].
Definition text_of_time (t : gotime) : bytes :=
  if is_zero_time t then B "0001-01-01 00:00:00 +0000 UTC" else B "2020-01-01 12:00:00 +0000 UTC".
Definition gotext (v : value) : bytes :=
  match v with
  | VStr s => B """" ++ s ++ B """"
  | VInt _ z => itoa z
  | VBool b => bool_text b
  | VFloat64 f => float_text f
  | VTime _ => B "time.Date(2020, time.January, 1, 12, 0, 0, 0, time.UTC)"
  | _ => B "?"
  end.
Definition go1 : golib := GoLib float_text float_text text_of_time (fun _ => B "?") gotext (fun _ => min_int).
Definition order1 (_ : heap) (m : gmap bytes value) : list (bytes * value) := map_to_list m.
Notation D l := (ODs (list_to_map l)).
Notation S1 := (fun s => VStr (B s)).


(** [NewXDatasetTS], v2/xdatasetts.go:16-21, around location 1. *)
Definition around (ts : bool) (h : heap) : heap := if ts then <[100%positive := OTs (Some 1%positive)]> h else h.
Definition top (ts : bool) : loc := if ts then 100%positive else 1%positive.
Notation n := 40%nat.
Definition print (go ts : bool) (h : heap) : outcome bytes :=
  show_value go1 (show go1 order1 n (around ts h)) go (VRef (top ts)).

(** getComplexDataset, lines 105-135. *)
Definition complex : heap := list_to_map
  [ (1%positive, D [(B "clientname", S1 "Fred"); (B "clientpicture", S1 "face.jpg"); (B "hobbies", VRef 2);
                    (B "preferredhobby", VRef 7); (B "metadata", VRef 8)]);
    (2%positive, OColl [Some 3%positive; Some 4%positive; Some 5%positive; Some 6%positive]);
    (3%positive, D [(B "name", S1 "Football"); (B "sport", S1 "yes")]);
    (4%positive, D [(B "name", S1 "Ping-pong"); (B "sport", S1 "yes")]);
    (5%positive, D [(B "name", S1 "Swimming"); (B "sport", S1 "yes")]);
    (6%positive, D [(B "name", S1 "Videogames"); (B "sport", S1 "no")]);
    (7%positive, D [(B "name", S1 "Baseball"); (B "sport", S1 "yes")]);
    (8%positive, D [(B "preferred-color", S1 "blue"); (B "salary", VFloat64 f3568); (B "hiredate", VTime tmp);
                    (B "hascat", VBool true); (B "hasdog", VBool false); (B "previoussalary", VFloat64 (S754_zero false));
                    (B "resume", S1 ""); (B "numdata1", VInt KInt 0); (B "numdata2", VInt KInt 17)]) ].

(** TestXDataset_simple_print, lines 81-103. *)
Definition simple : heap := {[ 1%positive := D [(B "v1", VInt KInt 123); (B "v2", S1 "abc"); (B "vt", VTime tmp); (B "v3", VBool true);
                                              (B "vpi", VFloat64 fpi7)] ]}.
Example TestXDataset_simple_print ts :
  print false ts simple = Ok (B "xcore.XDataset{v1:123 v2:abc v3:true vpi:3.1415927 vt:2020-01-01 12:00:00 +0000 UTC}") /\
  print true ts simple = Ok (B "#xcore.XDataset{v1:123 v2:""abc"" v3:true vpi:3.1415927 vt:time.Date(2020, time.January, 1, 12, 0, 0, 0, time.UTC)}").
Proof. destruct ts; vm_compute; auto. Qed.

(** TestXDataset_complex_print, lines 137-152. *)
Example TestXDataset_complex_print ts :
  print false ts complex = Ok (B "xcore.XDataset{clientname:Fred clientpicture:face.jpg hobbies:XDatasetCollection[0:xcore.XDataset{name:Football sport:yes} 1:xcore.XDataset{name:Ping-pong sport:yes} 2:xcore.XDataset{name:Swimming sport:yes} 3:xcore.XDataset{name:Videogames sport:no} ] metadata:xcore.XDataset{hascat:true hasdog:false hiredate:2020-01-01 12:00:00 +0000 UTC numdata1:0 numdata2:17 preferred-color:blue previoussalary:0 resume: salary:3568.65} preferredhobby:xcore.XDataset{name:Baseball sport:yes}}") /\
  print true ts complex = Ok (B "#xcore.XDataset{clientname:""Fred"" clientpicture:""face.jpg"" hobbies:XDatasetCollection[0:xcore.XDataset{name:Football sport:yes} 1:xcore.XDataset{name:Ping-pong sport:yes} 2:xcore.XDataset{name:Swimming sport:yes} 3:xcore.XDataset{name:Videogames sport:no} ] metadata:#xcore.XDataset{hascat:true hasdog:false hiredate:time.Date(2020, time.January, 1, 12, 0, 0, 0, time.UTC) numdata1:0 numdata2:17 preferred-color:""blue"" previoussalary:0 resume:"""" salary:3568.65} preferredhobby:#xcore.XDataset{name:""Baseball"" sport:""yes""}}").
Proof. destruct ts; vm_compute; auto. Qed.

(** TestXDataset_new, lines 50-79. *)
Example TestXDataset_new :
  let hobby a b := [(B "name", GLeaf (S1 a)); (B "sport", GLeaf (S1 b))] in
  let '(h, d) := new_dataset ∅
    [ (B "clientname", GLeaf (S1 "Fred")); (B "clientpicture", GLeaf (S1 "face.jpg"));
      (B "hobbies", GMaps [hobby "Football" "yes"; hobby "Ping-pong" "yes"; hobby "Swimming" "yes"; hobby "Videogames" "no"]%string);
      (B "preferredhobby", GMap (hobby "Baseball" "yes")%string);
      (B "metadata", GMap [(B "preferred-color", GLeaf (S1 "blue")); (B "Salary", GLeaf (VFloat64 f3568)); (B "hiredate", GLeaf (VTime tmp))]) ] in
  show_value go1 (show go1 order1 n h) true (VRef d) = Ok (B "#xcore.XDataset{clientname:""Fred"" clientpicture:""face.jpg"" hobbies:XDatasetCollection[0:xcore.XDataset{name:Football sport:yes} 1:xcore.XDataset{name:Ping-pong sport:yes} 2:xcore.XDataset{name:Swimming sport:yes} 3:xcore.XDataset{name:Videogames sport:no} ] metadata:#xcore.XDataset{Salary:3568.65 hiredate:time.Date(2020, time.January, 1, 12, 0, 0, 0, time.UTC) preferred-color:""blue""} preferredhobby:#xcore.XDataset{name:""Baseball"" sport:""yes""}}").
Proof. vm_compute. reflexivity. Qed.

(** TestXDataset_Get, lines 154-204. *)
Definition coll_text : bytes := B "XDatasetCollection[0:xcore.XDataset{name:Football sport:yes} 1:xcore.XDataset{name:Ping-pong sport:yes} 2:xcore.XDataset{name:Swimming sport:yes} 3:xcore.XDataset{name:Videogames sport:no} ]".
Example TestXDataset_Get ts :
  let h := around ts complex in let d := top ts in
  let text key := r <-! dget n h d (B key); match r with Some v => sprint go1 order1 n h v | None => Ok [] end in
  get_string go1 order1 n h d (B "clientname") = Ok (B "Fred", true) /\
  text "hobbies"%string = Ok coll_text /\
  text "hobbies>2"%string = Ok (B "xcore.XDataset{name:Swimming sport:yes}") /\
  get_string go1 order1 n h d (B "hobbies>2>name") = Ok (B "Swimming", true) /\
  dget n h d (B "wrong>2>name") = Ok None /\
  dget n h d (B "hobbies>xxx>name") = Ok None /\
  dget n h d (B "hobbies>999>name") = Ok None.
Proof. destruct ts; vm_compute; auto 10. Qed.
(** TestXDataset_GetDataset and TestXDataset_GetCollection, lines 206-268. *)
Example TestXDataset_GetDataset ts :
  let h := around ts complex in let d := top ts in
  get_dataset n h d (B "hobbies>2") = Ok (Some 5%positive, true) /\
  sprint go1 order1 n h (VRef 5) = Ok (B "xcore.XDataset{name:Swimming sport:yes}") /\
  get_dataset n h d (B "hobbies") = Ok (None, false) /\
  get_dataset n h d (B "clientname") = Ok (None, false) /\
  get_dataset n h d (B "xxx") = Ok (None, false).
Proof. destruct ts; vm_compute; auto 10. Qed.
Example TestXDataset_GetCollection ts :
  let h := around ts complex in let d := top ts in
  get_collection n h d (B "hobbies") = Ok (Some 2%positive, true) /\
  sprint go1 order1 n h (VRef 2) = Ok coll_text /\
  get_collection n h d (B "hobbies>2") = Ok (None, false) /\
  get_collection n h d (B "clientname") = Ok (None, false) /\
  get_collection n h d (B "xxx") = Ok (None, false).
Proof. destruct ts; vm_compute; auto 10. Qed.
(** TestXDataset_GetString, lines 270-299. *)
Example TestXDataset_GetString ts :
  let h := around ts complex in let d := top ts in
  get_string go1 order1 n h d (B "hobbies") = Ok (coll_text, true) /\
  get_string go1 order1 n h d (B "hobbies>2") = Ok (B "xcore.XDataset{name:Swimming sport:yes}", true) /\
  get_string go1 order1 n h d (B "clientname") = Ok (B "Fred", true) /\
  get_string go1 order1 n h d (B "xxx") = Ok ([], false).
Proof. destruct ts; vm_compute; auto 10. Qed.

(** GetTypesDataSet, lines 301-357. *)
Definition types : heap := list_to_map [ (2%positive, ODs ∅); (1%positive, D
  [ (B "bool0", VBool false);
    (B "bool1", VBool true);
    (B "time0", VTime zero_time);
    (B "time1", VTime tmp);
    (B "int0", VInt KInt (0));
    (B "int1", VInt KInt (1));
    (B "int-limit", VInt KInt (-9223372036854775808));
    (B "intlimit", VInt KInt (9223372036854775807));
    (B "int80", VInt KInt8 (0));
    (B "int81", VInt KInt8 (1));
    (B "int8-limit", VInt KInt8 (-128));
    (B "int8limit", VInt KInt8 (127));
    (B "int160", VInt KInt16 (0));
    (B "int161", VInt KInt16 (1));
    (B "int16-limit", VInt KInt16 (-32768));
    (B "int16limit", VInt KInt16 (32767));
    (B "int320", VInt KInt32 (0));
    (B "int321", VInt KInt32 (1));
    (B "int32-limit", VInt KInt32 (-2147483648));
    (B "int32limit", VInt KInt32 (2147483647));
    (B "int640", VInt KInt64 (0));
    (B "int641", VInt KInt64 (1));
    (B "int64-limit", VInt KInt64 (-9223372036854775808));
    (B "int64limit", VInt KInt64 (9223372036854775807));
    (B "uint0", VInt KUint (0));
    (B "uint1", VInt KUint (1));
    (B "uint80", VInt KUint8 (0));
    (B "uint81", VInt KUint8 (1));
    (B "uint8limit", VInt KUint8 (255));
    (B "uint160", VInt KUint16 (0));
    (B "uint161", VInt KUint16 (1));
    (B "uint16limit", VInt KUint16 (65535));
    (B "uint320", VInt KUint32 (0));
    (B "uint321", VInt KUint32 (1));
    (B "uint32limit", VInt KUint32 (4294967295));
    (B "uint640", VInt KUint64 (0));
    (B "uint641", VInt KUint64 (1));
    (B "uint64limit", VInt KUint64 (18446744073709551615));
    (B "float320", VFloat32 (S754_zero false));
    (B "float321", VFloat32 g1);
    (B "float32-limit", VFloat64 fmin32);
    (B "float32limit", VFloat64 fmax32);
    (B "float640", VFloat64 (S754_zero false));
    (B "float641", VFloat64 f1);
    (B "float64-limit", VFloat64 fmin);
    (B "float64limit", VFloat64 fmax);
    (B "pointer0", VNil);
    (B "pointer1", VRef 2) ]) ].
(** TestXDataset_GetBool, lines 359-408. *)
Example TestXDataset_GetBool ts :
  let h := around ts types in let d := top ts in
  let tests := [ ("bool0"%string, false);
      ("bool1"%string, true);
      ("time0"%string, false);
      ("time1"%string, true);
      ("int0"%string, false);
      ("int1"%string, true);
      ("int80"%string, false);
      ("int81"%string, true);
      ("int160"%string, false);
      ("int161"%string, true);
      ("int320"%string, false);
      ("int321"%string, true);
      ("int640"%string, false);
      ("int641"%string, true);
      ("uint0"%string, false);
      ("uint1"%string, true);
      ("uint80"%string, false);
      ("uint81"%string, true);
      ("uint160"%string, false);
      ("uint161"%string, true);
      ("uint320"%string, false);
      ("uint321"%string, true);
      ("uint640"%string, false);
      ("uint641"%string, true);
      ("float320"%string, false);
      ("float321"%string, true);
      ("float640"%string, false);
      ("float641"%string, true);
      ("pointer0"%string, false);
      ("pointer1"%string, true) ] in
  map (fun kr => get_bool n h d (B kr.1)) tests = map (fun kr => Ok (kr.2, true)) tests /\
  get_bool n h d (B "xxx") = Ok (false, false).
Proof. destruct ts; vm_compute; auto. Qed.

(** TestXDataset_GetInt, lines 410-471. *)
Example TestXDataset_GetInt ts :
  let h := around ts types in let d := top ts in
  let tests := [ ("bool0"%string, (0));
      ("bool1"%string, (1));
      ("time0"%string, (0));
      ("time1"%string, (1577880000));
      ("int0"%string, (0));
      ("int1"%string, (1));
      ("int-limit"%string, (-9223372036854775808));
      ("intlimit"%string, (9223372036854775807));
      ("int80"%string, (0));
      ("int81"%string, (1));
      ("int8-limit"%string, (-128));
      ("int8limit"%string, (127));
      ("int160"%string, (0));
      ("int161"%string, (1));
      ("int16-limit"%string, (-32768));
      ("int16limit"%string, (32767));
      ("int320"%string, (0));
      ("int321"%string, (1));
      ("int32-limit"%string, (-2147483648));
      ("int32limit"%string, (2147483647));
      ("int640"%string, (0));
      ("int641"%string, (1));
      ("int64-limit"%string, (-9223372036854775808));
      ("int64limit"%string, (9223372036854775807));
      ("uint0"%string, (0));
      ("uint1"%string, (1));
      ("uint80"%string, (0));
      ("uint81"%string, (1));
      ("uint160"%string, (0));
      ("uint161"%string, (1));
      ("uint320"%string, (0));
      ("uint321"%string, (1));
      ("uint640"%string, (0));
      ("uint641"%string, (1));
      ("float320"%string, (0));
      ("float321"%string, (1));
      ("float32-limit"%string, (0));
      ("float32limit"%string, (-9223372036854775808));
      ("float640"%string, (0));
      ("float641"%string, (1));
      ("float64-limit"%string, (0));
      ("float64limit"%string, (-9223372036854775808)) ] in
  map (fun kr => get_int go1 n h d (B kr.1)) tests = map (fun kr => Ok (kr.2, true)) tests /\
  get_int go1 n h d (B "xxx") = Ok (0, false).
Proof. destruct ts; vm_compute; auto. Qed.

(** TestXDataset_GetFloat, lines 473-534. *)
Example TestXDataset_GetFloat ts :
  let h := around ts types in let d := top ts in
  let tests := [ ("bool0"%string, (S754_zero false));
      ("bool1"%string, (S754_finite false 4503599627370496 (-52)));
      ("time0"%string, (S754_zero false));
      ("time1"%string, (S754_finite false 6618108395520000 (-22)));
      ("int0"%string, (S754_zero false));
      ("int1"%string, (S754_finite false 4503599627370496 (-52)));
      ("int-limit"%string, (S754_finite true 4503599627370496 (11)));
      ("intlimit"%string, (S754_finite false 4503599627370496 (11)));
      ("int80"%string, (S754_zero false));
      ("int81"%string, (S754_finite false 4503599627370496 (-52)));
      ("int8-limit"%string, (S754_finite true 4503599627370496 (-45)));
      ("int8limit"%string, (S754_finite false 8936830510563328 (-46)));
      ("int160"%string, (S754_zero false));
      ("int161"%string, (S754_finite false 4503599627370496 (-52)));
      ("int16-limit"%string, (S754_finite true 4503599627370496 (-37)));
      ("int16limit"%string, (S754_finite false 9006924376834048 (-38)));
      ("int320"%string, (S754_zero false));
      ("int321"%string, (S754_finite false 4503599627370496 (-52)));
      ("int32-limit"%string, (S754_finite true 4503599627370496 (-21)));
      ("int32limit"%string, (S754_finite false 9007199250546688 (-22)));
      ("int640"%string, (S754_zero false));
      ("int641"%string, (S754_finite false 4503599627370496 (-52)));
      ("int64-limit"%string, (S754_finite true 4503599627370496 (11)));
      ("int64limit"%string, (S754_finite false 4503599627370496 (11)));
      ("uint0"%string, (S754_zero false));
      ("uint1"%string, (S754_finite false 4503599627370496 (-52)));
      ("uint80"%string, (S754_zero false));
      ("uint81"%string, (S754_finite false 4503599627370496 (-52)));
      ("uint160"%string, (S754_zero false));
      ("uint161"%string, (S754_finite false 4503599627370496 (-52)));
      ("uint320"%string, (S754_zero false));
      ("uint321"%string, (S754_finite false 4503599627370496 (-52)));
      ("uint640"%string, (S754_zero false));
      ("uint641"%string, (S754_finite false 4503599627370496 (-52)));
      ("float320"%string, (S754_zero false));
      ("float321"%string, (S754_finite false 4503599627370496 (-52)));
      ("float32-limit"%string, fmin32);
      ("float32limit"%string, fmax32);
      ("float640"%string, (S754_zero false));
      ("float641"%string, (S754_finite false 4503599627370496 (-52)));
      ("float64-limit"%string, fmin);
      ("float64limit"%string, fmax) ] in
  map (fun kr => get_float n h d (B kr.1)) tests = map (fun kr => Ok (kr.2, true)) tests /\
  get_float n h d (B "xxx") = Ok (S754_zero false, false).
Proof. destruct ts; vm_compute; auto. Qed.

(** TestXDataset_GetTime, lines 536-563. *)
Example TestXDataset_GetTime ts :
  let h := around ts types in let d := top ts in
  get_time n h d (B "time0") = Ok (zero_time, true) /\ get_time n h d (B "time1") = Ok (tmp, true) /\
  get_time n h d (B "float641") = Ok (zero_time, false) /\ get_time n h d (B "xxx") = Ok (zero_time, false).
Proof. destruct ts; vm_compute; auto. Qed.
(** The tests of the slices, lines 565-668: TestXDataset_GetStringCollection, GetBoolCollection, GetIntCollection, GetFloatCollection, GetTimeCollection. *)
Definition slices : heap := {[ 1%positive := D [ (B "ss", VStrs [B "s1"; B "s2"; B "s3"; B "s4"]); (B "sb", VBools [false; false; true; false]);
    (B "si", VInts [0; 1; 2147483647; -9223372036854775808]); (B "sf", VFloats [S754_zero false; f1; fpi; fmax]);
    (B "st", VTimes [zero_time; zero_time]) ] ]}.
Example TestXDataset_GetCollections ts :
  let h := around ts slices in let d := top ts in
  let text key := '(s, ok) <-! get_string go1 order1 n h d (B key); Ok s in
  get_strings n h d (B "ss") = Ok ([B "s1"; B "s2"; B "s3"; B "s4"], true) /\ text "ss"%string = Ok (B "[s1 s2 s3 s4]") /\
  get_strings n h d (B "xxx") = Ok ([], false) /\
  get_bools n h d (B "sb") = Ok ([false; false; true; false], true) /\ text "sb"%string = Ok (B "[false false true false]") /\
  get_bools n h d (B "xxx") = Ok ([], false) /\
  get_ints n h d (B "si") = Ok ([0; 1; 2147483647; -9223372036854775808], true) /\ text "si"%string = Ok (B "[0 1 2147483647 -9223372036854775808]") /\
  get_ints n h d (B "xxx") = Ok ([], false) /\
  get_floats n h d (B "sf") = Ok ([S754_zero false; f1; fpi; fmax], true) /\ text "sf"%string = Ok (B "[0 1 3.141592653589793 1.7976931348623157e+308]") /\
  get_floats n h d (B "xxx") = Ok ([], false) /\
  get_times n h d (B "st") = Ok ([zero_time; zero_time], true) /\ text "st"%string = Ok (B "[0001-01-01 00:00:00 +0000 UTC 0001-01-01 00:00:00 +0000 UTC]") /\
  get_times n h d (B "xxx") = Ok ([], false).
Proof. destruct ts; vm_compute; repeat split. Qed.
(** TestXDataset_Del, lines 670-686. *)
Example TestXDataset_Del ts :
  let h := around ts types in let d := top ts in
  get_int go1 n h d (B "int1") = Ok (1, true) /\
  (h' <-! ddel n h d (B "int1"); get_int go1 n h' d (B "int1")) = Ok (0, false).
Proof. destruct ts; vm_compute; auto. Qed.
(** TestXDataset_Clone, lines 688-723: after the clone, "p5" is set in the original's "v4". *)
Definition to_clone : heap := list_to_map
  [ (1%positive, D [(B "v1", VInt KInt 123); (B "v2", S1 "abc"); (B "v3", VBool true); (B "v4", VRef 2); (B "v5", VRef 3)]);
    (2%positive, D [(B "v4_p1", VInt KInt 456); (B "v4_p2", S1 "def"); (B "v4_p3", VBool false)]);
    (3%positive, OColl [Some 4%positive; Some 5%positive; Some 6%positive; Some 7%positive]);
    (4%positive, D [(B "v1", S1 "p1")]); (5%positive, D [(B "v1", S1 "p2")]); (6%positive, D [(B "v1", S1 "p3")]); (7%positive, D [(B "v1", S1 "p4")]) ].
Example TestXDataset_Clone ts :
  let h := around ts to_clone in let d := top ts in
  ('(h1, c) <-! clone order1 n h d;
   original <-! sprint go1 order1 n h1 (VRef d); cloned <-! sprint go1 order1 n h1 (VRef c);
   h2 <-! dset n h1 2 (B "p5") (S1 "val5");
   val5o <-! get_string go1 order1 n h2 d (B "v4>p5"); val5c <-! get_string go1 order1 n h2 c (B "v4>p5");
   Ok (bool_decide (original = cloned), val5o, val5c)) = Ok (true, (B "val5", true), ([], false)).
Proof. destruct ts; vm_compute; auto. Qed.
