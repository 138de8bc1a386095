(** * The functions of packages strings, strconv, sort and bufio that xcore calls.
    These model the Go standard library (trusted), not /repo; they are written as plain
    list functions. *)
From Verif Require Import GoBase.
Local Open Scope Z_scope.

Global Instance bytes_eq_dec : EqDecision bytes := _.
Global Instance bytes_countable : Countable bytes := _.

(** [strings.Split s c] for a separator of one byte: never empty. *)
Fixpoint split_on (c : ascii) (s : bytes) : list bytes :=
  match s with
  | [] => [[]]
  | x :: s' => if ascii_dec x c then [] :: split_on c s'
               else match split_on c s' with
                    | [] => [[x]]
                    | w :: ws => (x :: w) :: ws
                    end
  end.

(** [strings.Join l sep]. *)
Fixpoint join (sep : bytes) (l : list bytes) : bytes :=
  match l with
  | [] => []
  | [w] => w
  | w :: ws => w ++ sep ++ join sep ws
  end.

(** [strings.Index s c] for one byte: the text before and after the first occurrence. *)
Fixpoint cut_at (c : ascii) (s : bytes) : option (bytes * bytes) :=
  match s with
  | [] => None
  | x :: s' => if ascii_dec x c then Some ([], s')
               else match cut_at c s' with
                    | None => None
                    | Some (a, b) => Some (x :: a, b)
                    end
  end.

(** Prefix test: the rest of [s] after [p]. *)
Fixpoint strip_prefix (p s : bytes) : option bytes :=
  match p, s with
  | [], _ => Some s
  | x :: p', y :: s' => if ascii_dec x y then strip_prefix p' s' else None
  | _ :: _, [] => None
  end.

(** ** unicode.IsSpace, as UTF-8 encodings *)
Definition byte (n : nat) : ascii := ascii_of_nat n.
Definition spaces : list bytes :=
  [[byte 9]; [byte 10]; [byte 11]; [byte 12]; [byte 13]; [byte 32];
   [byte 194; byte 133]; [byte 194; byte 160]; [byte 225; byte 154; byte 128]] ++
  map (fun n => [byte 226; byte 128; byte n]) [128; 129; 130; 131; 132; 133; 134; 135; 136; 137; 138; 168; 169; 175]%nat ++
  [[byte 226; byte 129; byte 159]; [byte 227; byte 128; byte 128]].

(** Remove one of the words of [ws] from the front. *)
Fixpoint strip_one (ws : list bytes) (s : bytes) : option bytes :=
  match ws with
  | [] => None
  | w :: ws' => match strip_prefix w s with Some r => Some r | None => strip_one ws' s end
  end.
Fixpoint strip_all (n : nat) (ws : list bytes) (s : bytes) : bytes :=
  match n with
  | O => s
  | S n' => match strip_one ws s with Some r => strip_all n' ws r | None => s end
  end.
Definition trim_left (s : bytes) : bytes := strip_all (length s) spaces s.
Definition trim_right (s : bytes) : bytes := reverse (strip_all (length s) (map reverse spaces) (reverse s)).
(** [strings.TrimSpace]. *)
Definition trim_space (s : bytes) : bytes := trim_right (trim_left s).

(** ** Decimal numbers *)
Definition digit (n : Z) : ascii := ascii_of_N (48 + Z.to_N n).
Definition digit_val (c : ascii) : option Z :=
  let n := Z.of_N (N_of_ascii c) - 48 in if bool_decide (0 <= n <= 9) then Some n else None.

(** [strconv.Itoa]. *)
Fixpoint pos_digits (n : nat) (z : Z) (acc : bytes) : bytes :=
  match n with
  | O => acc
  | S n' => if bool_decide (z < 10) then digit z :: acc else pos_digits n' (z / 10) (digit (z mod 10) :: acc)
  end.
Definition itoa (z : Z) : bytes :=
  if bool_decide (z < 0) then byte 45 :: pos_digits (Z.to_nat (Z.log2 (- z)) + 1) (- z) []
  else pos_digits (Z.to_nat (Z.log2 z) + 1) z [].

Definition max_int : Z := 2 ^ 63 - 1.
Definition min_int : Z := - 2 ^ 63.

(** [strconv.Atoi] (64 bit int): optional sign, at least one digit, in range. *)
Fixpoint digits_val (acc : Z) (s : bytes) : option Z :=
  match s with
  | [] => Some acc
  | c :: s' => match digit_val c with Some d => digits_val (10 * acc + d) s' | None => None end
  end.
Definition atoi (s : bytes) : option Z :=
  let '(sign, ds) := match s with
                     | c :: s' => if ascii_dec c (byte 45) then (-1, s')
                                  else if ascii_dec c (byte 43) then (1, s') else (1, s)
                     | [] => (1, s)
                     end in
  match ds with
  | [] => None
  | _ => match digits_val 0 ds with
         | Some v => if bool_decide (min_int <= sign * v <= max_int) then Some (sign * v) else None
         | None => None
         end
  end.

(** ** Order of strings and [sort.Strings] *)
Fixpoint bytes_leb (a b : bytes) : bool :=
  match a, b with
  | [], _ => true
  | _ :: _, [] => false
  | x :: a', y :: b' => match N.compare (N_of_ascii x) (N_of_ascii y) with
                        | Lt => true
                        | Gt => false
                        | Eq => bytes_leb a' b'
                        end
  end.
Definition bytes_le (a b : bytes) : Prop := bytes_leb a b = true.
Global Instance bytes_le_dec a b : Decision (bytes_le a b) := decide (bytes_leb a b = true).
Definition sort_strings (l : list bytes) : list bytes := merge_sort bytes_le l.

(** ** bufio.Scanner with ScanLines on a string: the lines delivered, and whether the scan
    ended with an error because a line has 65536 bytes or more (MaxScanTokenSize). *)
Definition lf : ascii := byte 10.
Definition cr : ascii := byte 13.
Definition drop_cr (l : bytes) : bytes :=
  match reverse l with c :: r => if ascii_dec c cr then reverse r else l | [] => l end.
Fixpoint drop_last_empty (ls : list bytes) : list bytes :=
  match ls with
  | [] => []
  | [[]] => []
  | l :: ls' => l :: drop_last_empty ls'
  end.
Definition max_token : Z := 65536.
Fixpoint deliver (ls : list bytes) : list bytes * bool :=
  match ls with
  | [] => ([], true)
  | l :: ls' => if bool_decide (max_token <= Z.of_nat (length l)) then ([], false)
                else let '(r, ok) := deliver ls' in (drop_cr l :: r, ok)
  end.
Definition scan_lines (s : bytes) : list bytes * bool := deliver (drop_last_empty (split_on lf s)).
