(** * encoding/xml.Unmarshal into the structures of v2/xlanguage.go:94-104.

    This models the Go standard library (trusted), not /repo: the functions below follow
    Decoder.text, rawToken, name, attrval, Token and unmarshal of encoding/xml (strict mode,
    no charset reader).  [XOther] marks documents outside the modelled part:
    directives, names with a colon or a byte above 127, attributes named xmlns, XML
    declarations other than [declared].  Nothing is claimed about those. *)
From Verif Require Import GoBase GoStrings LangModel.
Local Open Scope Z_scope.

Inductive xres (A : Type) := XOk (a : A) | XErr | XOther.
Arguments XOk {A} a. Arguments XErr {A}. Arguments XOther {A}.
Definition xbind {A C} (r : xres A) (f : A -> xres C) : xres C :=
  match r with XOk a => f a | XErr => XErr | XOther => XOther end.
Notation "'let?' p := e 'in' f" := (xbind e (fun p => f)) (at level 200, p pattern, e at level 200, f at level 200).

Definition ord (c : ascii) : Z := Z.of_N (N_of_ascii c).
Definition in_range (a b : Z) (c : ascii) : bool := (a <=? ord c) && (ord c <=? b).
Definition is_byte (n : Z) (c : ascii) : bool := ord c =? n.

(** ** Characters: valid UTF-8 whose runes are in the range of isInCharacterRange *)
Definition cont : ascii -> bool := in_range 128 191.
Fixpoint legal (s : bytes) : bool :=
  match s with
  | [] => true
  | a :: s1 =>
      if ord a <? 128 then (is_byte 9 a || is_byte 10 a || is_byte 13 a || (32 <=? ord a)) && legal s1
      else match s1 with
      | b :: s2 =>
          if in_range 194 223 a then cont b && legal s2
          else match s2 with
          | c :: s3 =>
              if in_range 224 239 a then
                (if is_byte 224 a then in_range 160 191 b else if is_byte 237 a then in_range 128 159 b else cont b) && cont c &&
                negb (is_byte 239 a && is_byte 191 b && (190 <=? ord c)) && legal s3        (* FFFE, FFFF *)
              else match s3 with
              | d :: s4 =>
                  in_range 240 244 a &&
                  (if is_byte 240 a then in_range 144 191 b else if is_byte 244 a then in_range 128 143 b else cont b) &&
                  cont c && cont d && legal s4
              | [] => false
              end
          | [] => false
          end
      | [] => false
      end
  end.
(** string(rune(n)). *)
Definition chr_of (z : Z) : ascii := ascii_of_N (Z.to_N z).
Definition utf8 (n : Z) : bytes :=
  if n <? 128 then [chr_of n]
  else if n <? 2048 then [chr_of (192 + n / 64); chr_of (128 + n mod 64)]
  else if (55296 <=? n) && (n <? 57344) then [chr_of 239; chr_of 191; chr_of 189]           (* surrogates *)
  else if n <? 65536 then [chr_of (224 + n / 4096); chr_of (128 + n / 64 mod 64); chr_of (128 + n mod 64)]
  else [chr_of (240 + n / 262144); chr_of (128 + n / 4096 mod 64); chr_of (128 + n / 64 mod 64); chr_of (128 + n mod 64)].

(** ** Names: readName, name, nsname *)
Definition name_byte (c : ascii) : bool :=
  in_range 65 90 c || in_range 97 122 c || in_range 48 57 c || is_byte 95 c || is_byte 58 c || is_byte 46 c || is_byte 45 c || (128 <=? ord c).
Fixpoint read_name (s : bytes) : bytes * bytes :=
  match s with
  | [] => ([], [])
  | c :: s' => if name_byte c then let '(w, r) := read_name s' in (c :: w, r) else ([], s)
  end.
Definition name_start (c : ascii) : bool := in_range 65 90 c || in_range 97 122 c || is_byte 95 c.
(** A name must be followed by at least one more byte. *)
Definition xname (s : bytes) : xres (bytes * bytes) :=
  let '(w, r) := read_name s in
  match w, r with
  | [], _ => XErr
  | _, [] => XErr
  | c :: _, _ => if existsb (fun c => (128 <=? ord c) || is_byte 58 c) w then XOther
                 else if name_start c then XOk (w, r) else XErr
  end.
(** space(). *)
Definition blank_byte (c : ascii) : bool := is_byte 32 c || is_byte 13 c || is_byte 10 c || is_byte 9 c.
Fixpoint skip_space (s : bytes) : bytes :=
  match s with c :: s' => if blank_byte c then skip_space s' else s | [] => [] end.

(** ** Entities, after the '&' *)
Definition hex_val (c : ascii) : option Z :=
  if in_range 48 57 c then Some (ord c - 48) else if in_range 97 102 c then Some (ord c - 87) else if in_range 65 70 c then Some (ord c - 55) else None.
Fixpoint read_number (base : Z) (acc : option Z) (s : bytes) : option Z * bytes :=
  match s with
  | c :: s' => match (if base =? 16 then hex_val c else digit_val c) with
               | Some d => read_number base (Some (base * match acc with Some a => a | None => 0 end + d)) s'
               | None => (acc, s)
               end
  | [] => (acc, [])
  end.
Definition entity (s : bytes) : xres (bytes * bytes) :=
  match s with
  | c :: s1 =>
      if is_byte 35 c then                                                                    (* '#' *)
        let '(n, r) := match s1 with
                       | x :: s2 => if is_byte 120 x then read_number 16 None s2 else read_number 10 None s1
                       | [] => (None, [])
                       end in
        match n, r with
        | Some n, e :: r' => if is_byte 59 e && (n <=? 1114111) then XOk (utf8 n, r') else XErr
        | _, _ => XErr
        end
      else let '(w, r) := read_name s in
           match r with
           | e :: r' =>
               if is_byte 59 e then
                 if bool_decide (w = B "lt") then XOk (B "<", r')
                 else if bool_decide (w = B "gt") then XOk (B ">", r')
                 else if bool_decide (w = B "amp") then XOk (B "&", r')
                 else if bool_decide (w = B "apos") then XOk (B "'", r')
                 else if bool_decide (w = B "quot") then XOk (B """", r')
                 else XErr
               else XErr
           | [] => XErr
           end
  | [] => XErr
  end.

(** ** Decoder.text: the data (in [acc], last byte first) and what follows.  [b0], [b1] are
    the two bytes before.  One unit of fuel per byte. *)
Definition nul : ascii := byte 0.
Definition finish (data rest : bytes) : xres (bytes * bytes) := if legal data then XOk (data, rest) else XErr.
Fixpoint xtext (n : nat) (quote : option ascii) (cdata : bool) (b0 b1 : ascii) (acc s : bytes) : xres (bytes * bytes) :=
  match n with
  | O => XOther
  | S n' =>
      match s with
      | [] => if cdata then XErr else finish (reverse acc) []
      | b :: s' =>
          if bool_decide (quote = None) && is_byte 93 b0 && is_byte 93 b1 && is_byte 62 b then       (* ]]> *)
            if cdata then finish (reverse (drop 2 acc)) s' else XErr
          else if is_byte 60 b && negb cdata then                                               (* '<' *)
            match quote with Some _ => XErr | None => finish (reverse acc) s end
          else if bool_decide (quote = Some b) then finish (reverse acc) s'
          else if is_byte 38 b && negb cdata then                                               (* '&' *)
            let? (t, r) := entity s' in xtext n' quote cdata nul nul (reverse t ++ acc) r
          else if is_byte 13 b then xtext n' quote cdata b1 b (lf :: acc) s'
          else if is_byte 13 b1 && is_byte 10 b then xtext n' quote cdata b1 b acc s'
          else xtext n' quote cdata b1 b (b :: acc) s'
      end
  end.
Definition text (quote : option ascii) (cdata : bool) (s : bytes) : xres (bytes * bytes) := xtext (S (length s)) quote cdata nul nul [] s.

(** ** rawToken *)
(** [TProc]: a processing instruction or a comment; Unmarshal ignores both. *)
Inductive token := TStart (name : bytes) (attrs : list (bytes * bytes)) (empty : bool) | TEnd (name : bytes) | TChars (s : bytes) | TProc.
(** The attributes and the end of a start tag; one unit of fuel per attribute. *)
Fixpoint xattrs (n : nat) (acc : list (bytes * bytes)) (s : bytes) : xres (list (bytes * bytes) * bool * bytes) :=
  match n with
  | O => XOther
  | S n' =>
      match skip_space s with
      | [] => XErr
      | b :: s1 =>
          if is_byte 47 b then match s1 with c :: s2 => if is_byte 62 c then XOk (acc, true, s2) else XErr | [] => XErr end
          else if is_byte 62 b then XOk (acc, false, s1)
          else match skip_space (read_name (b :: s1)).2 with        (* without the '=' an error, whatever the name *)
               | e :: r1 =>
                   if is_byte 61 e then
                     let? (w, r) := xname (b :: s1) in
                     match skip_space r1 with
                     | q :: r2 => if is_byte 34 q || is_byte 39 q then
                                    let? (v, r3) := text (Some q) false r2 in
                                    match r3 with
                                    | [] => XErr
                                    | _ => if bool_decide (w = B "xmlns") then XOther else xattrs n' (acc ++ [(w, v)]) r3
                                    end
                                  else XErr
                     | [] => XErr
                     end
                   else XErr
               | [] => XErr
               end
      end
  end.
(** A processing instruction: its content up to "?>". *)
Fixpoint proc (s : bytes) : option (bytes * bytes) :=
  match s with
  | a :: s1 => match s1 with
               | b :: s2 => if is_byte 63 a && is_byte 62 b then Some ([], s2)
                            else match proc s1 with Some (w, r) => Some (a :: w, r) | None => None end
               | [] => None
               end
  | [] => None
  end.
(** The XML declarations that are modelled: the one GetXML writes and the same without the blank. *)
Definition declared (data : bytes) : bool :=
  bool_decide (data = B "version=""1.0"" encoding=""UTF-8"" ") || bool_decide (data = B "version=""1.0"" encoding=""UTF-8""").
(** A comment, after the two dashes, up to "-->"; two dashes that are not the end are an error. *)
Fixpoint comment (b0 b1 : ascii) (s : bytes) : option bytes :=
  match s with
  | [] => None
  | b :: s' => if is_byte 45 b0 && is_byte 45 b1 then if is_byte 62 b then Some s' else None else comment b1 b s'
  end.
(** [None]: end of the input. *)
Definition raw_token (s : bytes) : xres (option (token * bytes)) :=
  match s with
  | [] => XOk None
  | b :: s1 =>
      if is_byte 60 b then
        match s1 with
        | [] => XErr
        | c :: s2 =>
            if is_byte 47 c then                                                                (* </ *)
              let? (w, r) := xname s2 in
              match skip_space r with e :: r1 => if is_byte 62 e then XOk (Some (TEnd w, r1)) else XErr | [] => XErr end
            else if is_byte 63 c then                                                           (* <? *)
              let? (w, r) := xname s2 in
              match proc (skip_space r) with
              | None => XErr
              | Some (data, r1) =>
                  if bool_decide (w = B "xml") && negb (declared data) then XOther
                  else XOk (Some (TProc, r1))
              end
            else if is_byte 33 c then                                                           (* <! *)
              match s2 with
              | [] => XErr
              | d :: s3 =>
                  if is_byte 91 d then
                    match strip_prefix (B "CDATA[") s3 with
                    | Some r => let? (v, r1) := text None true r in XOk (Some (TChars v, r1))
                    | None => XErr
                    end
                  else if is_byte 45 d then
                    match s3 with
                    | e :: s4 => if is_byte 45 e then
                                   match comment nul nul s4 with Some r => XOk (Some (TProc, r)) | None => XErr end
                                 else XErr
                    | [] => XErr
                    end
                  else XOther
              end
            else let? (w, r) := xname s1 in
                 let? (al, empty, r1) := xattrs (S (length r)) [] r in XOk (Some (TStart w al empty, r1))
        end
      else let? (v, r) := text None false s in XOk (Some (TChars v, r))
  end.

(** ** Unmarshal.  State: the open elements (innermost first), the document so far, and the
    entry being read.  Elements inside an entry and elements of the root that are not named
    entry are skipped.  What follows the end of the root is not read. *)
Fixpoint attr (k : bytes) (al : list (bytes * bytes)) (v : bytes) : bytes :=
  match al with [] => v | (n, w) :: al' => attr k al' (if bool_decide (n = k) then w else v) end.
Record xstate := XState { xs_open : list bytes; xs_doc : xdoc; xs_entry : option (bytes * bytes * bytes) }.
Definition start_element (st : xstate) (w : bytes) (al : list (bytes * bytes)) : xstate :=
  match xs_open st with
  | [] => XState [w] (XDoc (attr (B "id") al []) (attr (B "lang") al []) []) None
  | [_] => XState (w :: xs_open st) (xs_doc st)
             (if bool_decide (w = B "entry") then Some (attr (B "id") al [], [], attr (B "status") al []) else None)
  | _ => XState (w :: xs_open st) (xs_doc st) (xs_entry st)
  end.
(** [inl]: the root is closed. *)
Definition end_element (st : xstate) (w : bytes) : xres (xdoc + xstate) :=
  match xs_open st with
  | [] => XErr
  | o :: os =>
      if bool_decide (o = w) then
        match os with
        | [] => XOk (inl (xs_doc st))
        | [_] => let d := xs_doc st in
                 XOk (inr (XState os (match xs_entry st with
                                      | Some e => XDoc (x_name d) (x_lang d) (x_entries d ++ [e])
                                      | None => d
                                      end) None))
        | _ => XOk (inr (XState os (xs_doc st) (xs_entry st)))
        end
      else XErr
  end.
Definition char_data (st : xstate) (v : bytes) : xstate :=
  match xs_open st, xs_entry st with
  | [_; _], Some (id, t, s) => XState (xs_open st) (xs_doc st) (Some (id, t ++ v, s))
  | _, _ => st
  end.
Definition take_token (st : xstate) (t : token) : xres (xdoc + xstate) :=
  match t with
  | TProc => XOk (inr st)
  | TChars v => XOk (inr (char_data st v))
  | TStart w al false => XOk (inr (start_element st w al))
  | TStart w al true => end_element (start_element st w al) w
  | TEnd w => end_element st w
  end.
Fixpoint xloop (n : nat) (st : xstate) (s : bytes) : xres xdoc :=
  match n with
  | O => XOther
  | S n' =>
      let? r := raw_token s in
      match r with
      | None => XErr                                   (* unexpected EOF *)
      | Some (t, s') =>
          let? x := take_token st t in
          match x with inl d => XOk d | inr st' => xloop n' st' s' end
      end
  end.
Definition unmarshal (s : bytes) : xres xdoc := xloop (S (length s)) (XState [] (XDoc [] [] []) None) s.

(** A decoder that does what encoding/xml does, on the modelled part. *)
Definition faithful (decode : bytes -> option xdoc) : Prop :=
  forall s, match unmarshal s with XOk d => decode s = Some d | XErr => decode s = None | XOther => True end.
