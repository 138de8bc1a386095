(** * The tests of v2/xcache_test.go, replayed on the model.

    The code cannot be run here; its tests are the record of what it answers.  Each example
    has the name of a test, its calls and the answers the test requires. *)
From Verif Require Import GoBase GoStrings CacheModel.
Local Open Scope Z_scope.

Definition nokey : bytes -> Z := fun _ => 0.
Definition answers {D} (dnil : D) (maxitems expire : Z) (ops : list (op D)) : list (result D) :=
  map snd (run dnil (new_cache maxitems expire) ops).2.
Definition oset (k d : bytes) (t : Z) : op (option bytes) := OSet k (Some d) t t nokey.
Definition oget (k : bytes) (t : Z) : op (option bytes) := OGet k None t t t.

(** TestNewXCache (and ExampleNewXCache), lines 9-35. *)
Example TestNewXCache :
  answers (None : option bytes) 0 0 [OCount] = [RInt 0] /\
  answers (None : option bytes) 100 0 [OCount] = [RInt 0] /\
  answers (None : option bytes) 0 6000000000000 [OCount] = [RInt 0].
Proof. vm_compute. auto. Qed.
(** TestXCache, lines 37-61. *)
Example TestXCache :
  answers None 0 0
    [ oset (B "id1") (B "Data for id1") 1; oset (B "id2") (B "Data for id2") 2; oset (B "id3") (B "Data for id3") 3;
      OCount; oget (B "id1") 4; ODel (B "id1"); OCount; oget (B "id1") 5 ] =
  [ RUnit; RUnit; RUnit; RInt 3; RGet (Some (B "Data for id1")) false; RUnit; RInt 2; RGet None false ].
Proof. vm_compute. reflexivity. Qed.
(** TestXCache_invalidated, lines 63-97: Expire is one second, the test sleeps for two. *)
Example TestXCache_invalidated :
  answers None 0 1000000000
    [ oset (B "id1") (B "Data for id1") 1; oset (B "id2") (B "Data for id2") 2; oset (B "id3") (B "Data for id3") 3;
      OCount; OCount; oget (B "id1") 2000000004; OCount; oget (B "id2") 2000000005; OCount ] =
  [ RUnit; RUnit; RUnit; RInt 3; RInt 3; RGet None true; RInt 2; RGet None true; RInt 1 ].
Proof. vm_compute. reflexivity. Qed.
(** TestXCache_cleaning, lines 99-119. *)
Example TestXCache_cleaning :
  answers None 110 0
    (map (fun i => oset (B "id" ++ itoa (Z.of_nat i)) (itoa (Z.of_nat i)) (Z.of_nat i)) (seq 0 100) ++
     [OCount; OClean 30 nokey; OCount; OFlush; OCount]) =
  repeat RUnit 100 ++ [RInt 100; RInt 30; RInt 70; RUnit; RInt 0].
Proof. vm_compute. reflexivity. Qed.
