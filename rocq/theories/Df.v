(** The fragment of pandas used by galaxy-chop: ordered columns of cells. *)
From Verif Require Import Py Num Np.

Section Df.
Context {N : Num}.

(** A value stored in a data frame (data.py 240-262). *)
Inductive cell : Type := CNum (x : N) | CInt (z : Z) | CStr (s : string).

(** An entry of the dictionary given to [pd.DataFrame]: an array or a scalar (data.py 240-262). *)
Inductive coldata : Type := Arr (l : list cell) | Scal (c : cell).

(** Data frame with a default RangeIndex: number of rows, columns in order (data.py 270, 380). *)
Record df : Type := mkDf { nrows : nat; cols : dict (list cell) }.

(** NaN in a frame (data.py 250-258). *)
Definition cnan : cell := CNum nnan.

(** First array length found in the dictionary, if any (data.py 270). *)
Fixpoint first_len (d : dict coldata) : option nat :=
  match d with
  | [] => None
  | (_, Arr l) :: _ => Some (length l)
  | (_, Scal _) :: d' => first_len d'
  end.
(** A column with a length (data.py 270). *)
Definition has_len (n : nat) (c : coldata) : bool :=
  match c with Arr l => (length l =? n)%nat | Scal _ => true end.
(** A scalar fills its column (data.py 240-270). *)
Definition broadcast (n : nat) (c : coldata) : list cell :=
  match c with Arr l => l | Scal c => repeat c n end.

(** [pd.DataFrame(dict)]: arrays must have one length; scalars are broadcast; only
    scalars without index raises ValueError; the empty dictionary gives an empty frame (data.py 270). *)
Definition mk_df (d : dict coldata) : res df :=
  match d with
  | [] => Ok (mkDf 0 [])
  | _ =>
    match first_len d with
    | None => Raise ValueError
    | Some n =>
        if forallb (fun kc => has_len n (snd kc)) d
        then Ok (mkDf n (map (fun kc => (fst kc, broadcast n (snd kc))) d))
        else Raise ValueError
    end
  end.

(** Names in order of first occurrence (data.py 380). *)
Fixpoint dedup (seen l : list string) : list string :=
  match l with
  | [] => []
  | k :: l' => if smem k seen then dedup seen l' else k :: dedup (k :: seen) l'
  end.

(** Column [k] of a frame, NaN-filled when missing (data.py 380). *)
Definition col_or_nan (k : string) (p : df) : list cell :=
  match dget (cols p) k with Some c => c | None => repeat cnan (nrows p) end.

(** [pd.concat(parts, ignore_index=True)] (axis 0); ValueError on an empty list (data.py 380). *)
Definition concat_rows (parts : list df) : res df :=
  match parts with
  | [] => Raise ValueError
  | _ => Ok (mkDf (list_sum (map nrows parts))
                  (map (fun k => (k, flat_map (col_or_nan k) parts))
                       (dedup [] (flat_map (fun p => dkeys (cols p)) parts))))
  end.

(** [df[k]] (KeyError if missing) (_circ.py 115-119). *)
Definition get_col (d : df) (k : string) : res (list cell) :=
  match dget (cols d) k with Some c => Ok c | None => Raise KeyError end.

(** [df[[k1, ..., kn]]] (_align.py 139-146). *)
Definition select (d : df) (ks : list string) : res df :=
  do cs <- mapM (fun k => do c <- get_col d k; Ok (k, c)) ks;
  Ok (mkDf (nrows d) cs).

(** [df[mask]] with a boolean mask over the rows (io.py 61). *)
Definition row_filter (mask : list bool) (d : df) : df :=
  mkDf (count mask) (map (fun kc => (fst kc, bmask mask (snd kc))) (cols d)).

(** [df[k] = values] for an existing or new column (plot.py 120-124). *)
Definition set_col (d : df) (k : string) (c : list cell) : df :=
  mkDf (nrows d) (dset (cols d) k c).

(** A cell as a float (_circ.py 117-119). *)
Definition cell_num (c : cell) : N :=
  match c with CNum x => x | CInt z => nofZ z | CStr _ => nnan end.

(** [.to_numpy()] of a numeric column (_circ.py 117-119). *)
Definition to_numpy (c : list cell) : list N := map cell_num c.

(** Row [i] as the list of its cells ([None] if out of range) (_center.py 51). *)
Definition cell_at (d : df) (k : string) (i : nat) : option cell :=
  match dget (cols d) k with Some c => nth_error c i | None => None end.

(** Shape invariant: every column has [nrows] cells (data.py 270). *)
Definition wf_df (d : df) : Prop :=
  Forall (fun kc => length (snd kc) = nrows d) (cols d).

End Df.
Arguments cell : clear implicits.
Arguments coldata : clear implicits.
Arguments df : clear implicits.
