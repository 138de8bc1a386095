(** * Clone of a thread safe collection goes through an array that others write (C126).

    XDatasetCollectionTS.Clone takes no lock (v2/xdatasetcollectionts.go:159-165): [range dc.data] (line 161) takes
    the slice once and then reads one cell of its array in each round, while other goroutines call the
    methods of SliceModel.v (each of them one section under the lock).  The clones of the elements and the
    appends to the new slice are calls like those of others.  The three words of the slice are read at once
    (the race of C62 is not modelled further). *)
From Verif Require Import GoBase DatasetModel DatasetSpec SliceModel.

Inductive walker := Idle | Walking (s : slice) (got : list (option loc)) | Over (got : list (option loc)) | Torn.
Inductive event := Other (o : mop) | Begin | Read | End.
Notation moment := (gmap loc (list (option loc)) * gmap nat slice * walker)%type.
(** One step; the walker is a Clone of the collection in variable [i]. *)
Definition walk (grow : nat -> nat -> nat) (i : nat) (e : event) (st : moment) : option moment :=
  let '(m, vars, w) := st in
  match e, w with
  | Other o, _ => match mstep grow m vars o with Ok (m', vars', _) => Some (m', vars', w) | _ => None end
  | Begin, Idle => s ← vars !! i; Some (m, vars, Walking s [])                        (* line 161: range dc.data *)
  | Read, Walking s got =>                                                            (* lines 161-162: val *)
      if decide (length got < s_len s) then
        match at_index m s (Z.of_nat (length got)) with
        | Some x => Some (m, vars, Walking s (got ++ [x]))
        | None => Some (m, vars, Torn)                                                (* there is no such cell *)
        end
      else None
  | End, Walking s got => if decide (length got = s_len s) then Some (m, vars, Over got) else None   (* line 164 *)
  | _, _ => None
  end.
