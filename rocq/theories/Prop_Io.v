(** Property theorems. Reading and writing (C50 to C54). Proofs are in IoThms.v. *)
From Verif Require Import Py Num RX F64 Np Df Data DataFacts DfFacts RebuildFacts CenterFacts Ex Spec DataThms CircThms Io SpecIo IoFacts IoThms.
From Coq Require Import Lia Permutation.

(** Reading what was written gives the galaxy with the softenings asked for. *)
Theorem C50_round_trip : forall (N : Num) (M : Type) defaults (now : M) (f : h5 N M) (g : galaxy N) metadata f' r,
  constructible g -> no_nan g -> NoDup (dkeys (h_objs f)) ->
  to_hdf5 quiet defaults now f g metadata None None = (f', r) ->
  r = Ok tt /\ forall ss sd sg, exists g', read_hdf5 f' ss sd sg = Ok g' /\ read_back ss sd sg g g'.
Proof. exact c50_round_trip. Qed.
Print Assumptions C50_round_trip.

(** A galaxy with a NaN among the stored values is written without complaint and cannot be
    read again: its column comes back with a mask column beside it. *)
Theorem C50_nan : forall (N : Num) (M : Type) defaults (now : M) (f : h5 N M) (g : galaxy N) metadata f' r p v,
  constructible g -> In p (sets g) -> In v (saved_values p) -> nisnan v = true -> NoDup (dkeys (h_objs f)) ->
  to_hdf5 quiet defaults now f g metadata None None = (f', r) ->
  r = Ok tt /\ forall ss sd sg, read_hdf5 f' ss sd sg = Raise TypeError.
Proof. exact c50_nan. Qed.
Print Assumptions C50_nan.

(** Whatever was written before, however it ended, the last complete write is what is read;
    other objects in the file are never touched. *)
Theorem C51_last_wins : forall (N : Num) (M : Type) (f : h5 N M) (history : list (event M)) defaults (now : M) (g : galaxy N) metadata f' r,
  NoDup (dkeys (h_objs f)) -> constructible g -> no_nan g ->
  to_hdf5 quiet defaults now (fold_left after history f) g metadata None None = (f', r) ->
  r = Ok tt /\
  (forall ss sd sg, exists g', read_hdf5 f' ss sd sg = Ok g' /\ read_back ss sd sg g g') /\
  (forall name, ~ In name names3 -> dget (h_objs f') name = dget (h_objs f) name).
Proof. exact c51_last_wins. Qed.
Print Assumptions C51_last_wins.

(** However a write is disturbed, its three objects are, up to some point, those of the
    undisturbed write, at that point old or missing, and old beyond it. *)
Theorem C52_crash : forall (N : Num) (M : Type) fault defaults (now : M) (f : h5 N M) (g : galaxy N) metadata f1 r1 f' r,
  NoDup (dkeys (h_objs f)) -> constructible g ->
  to_hdf5 quiet defaults now f g metadata None None = (f1, r1) ->
  to_hdf5 fault defaults now f g metadata None None = (f', r) ->
  (forall name, ~ In name names3 -> dget (h_objs f') name = dget (h_objs f) name) /\
  exists n, (n <= 3)%nat /\
    (forall k name, nth_error names3 k = Some name ->
       ((k < n)%nat -> dget (h_objs f') name = dget (h_objs f1) name) /\
       (k = n -> dget (h_objs f') name = dget (h_objs f) name \/ dget (h_objs f') name = None) /\
       ((n < k)%nat -> dget (h_objs f') name = dget (h_objs f) name)) /\
    ((n < 3)%nat -> h_attrs f' = h_attrs f) /\
    (r = Ok tt -> n = 3%nat /\ h_attrs f' = h_attrs f1) /\
    (r = Ok tt \/ exists e i, r = Raise e /\ fault i = Some e).
Proof. exact c52_crash. Qed.
Print Assumptions C52_crash.

(** Over the file of one galaxy [g0] a second one is being written and the run ends before
    the [n]-th object is replaced: what is left reads as a mixture of the two galaxies, or
    not at all if only one of them has a potential. *)
Theorem C52_mixed : forall (N : Num) (M : Type) (fault : nat -> option exn) defaults (now : M) (f f0 : h5 N M) (g0 g1 : galaxy N) metadata0 metadata1 f' r n e,
  constructible g0 -> constructible g1 -> no_nan g0 -> no_nan g1 -> NoDup (dkeys (h_objs f)) ->
  to_hdf5 quiet defaults now f g0 metadata0 None None = (f0, Ok tt) ->
  (n < 3)%nat -> (forall i, (i < 2 * n)%nat -> fault i = None) -> fault (2 * n)%nat = Some e ->
  to_hdf5 fault defaults now f0 g1 metadata1 None None = (f', r) ->
  r = Raise e /\
  forall ss sd sg,
    (g_haspot g0 = g_haspot g1 -> exists g' s d q, read_hdf5 f' ss sd sg = Ok g' /\
       mixed_set n 0 g0 g1 = Some s /\ mixed_set n 1 g0 g1 = Some d /\ mixed_set n 2 g0 g1 = Some q /\
       same_but_softening ss s (g_stars g') /\ same_but_softening sd d (g_dm g') /\ same_but_softening sg q (g_gas g')) /\
    (g_haspot g0 <> g_haspot g1 -> (0 < n)%nat -> read_hdf5 f' ss sd sg = Raise ValueError).
Proof. exact c52_mixed. Qed.
Print Assumptions C52_mixed.

(** If it ends between the removal of the old object and the creation of the new one the file
    cannot be read. *)
Theorem C52_gone : forall (N : Num) (M : Type) (fault : nat -> option exn) defaults (now : M) (f f0 : h5 N M) (g0 g1 : galaxy N) metadata0 metadata1 f' r n e,
  constructible g0 -> constructible g1 -> NoDup (dkeys (h_objs f)) ->
  to_hdf5 quiet defaults now f g0 metadata0 None None = (f0, Ok tt) ->
  (n < 3)%nat -> (forall i, (i < 2 * n + 1)%nat -> fault i = None) -> fault (2 * n + 1)%nat = Some e ->
  to_hdf5 fault defaults now f0 g1 metadata1 None None = (f', r) ->
  r = Raise e /\ forall ss sd sg, read_hdf5 f' ss sd sg = Raise KeyError.
Proof. exact c52_gone. Qed.
Print Assumptions C52_gone.

(** Without leave to overwrite (or to append) a file that has a stars object is not changed. *)
Theorem C52_no_overwrite : forall (N : Num) (M : Type) fault defaults (now : M) (f : h5 N M) (g : galaxy N) metadata append overwrite,
  constructible g -> dget (h_objs f) "stars"%string <> None -> append = Some false \/ overwrite = Some false ->
  to_hdf5 fault defaults now f g metadata append overwrite = (f, Raise OSError).
Proof. exact c52_no_overwrite. Qed.
Print Assumptions C52_no_overwrite.

(** Attributes: the user's, else the time stamp and the defaults, else what was there. *)
Theorem C53_metadata : forall (N : Num) (M : Type) defaults (now : M) (f : h5 N M) (g : galaxy N) metadata f' r,
  constructible g -> NoDup (dkeys (h_objs f)) -> NoDup (dkeys defaults) -> (forall m, metadata = Some m -> NoDup (dkeys m)) ->
  to_hdf5 quiet defaults now f g metadata None None = (f', r) ->
  forall k,
    (forall m v, metadata = Some m -> dget m k = Some v -> dget (h_attrs f') k = Some v) /\
    ((forall m, metadata = Some m -> dget m k = None) ->
       (k = "utc_timestamp"%string -> dget (h_attrs f') k = Some now) /\
       (k <> "utc_timestamp"%string ->
          (forall v, dget defaults k = Some v -> dget (h_attrs f') k = Some v) /\
          (dget defaults k = None -> dget (h_attrs f') k = dget (h_attrs f) k))).
Proof. exact c53_metadata. Qed.
Print Assumptions C53_metadata.

(** Whatever is read has the meaning its column names say. *)
Theorem C54_meaning : forall (N : Num) (as_ ad ag : ndarray2 N) columns ps pd pg ss sd sg g,
  read_npy as_ ad ag columns ps pd pg ss sd sg = Ok g ->
  loaded as_ columns ps ss (g_stars g) /\ loaded ad columns pd sd (g_dm g) /\ loaded ag columns pg sg (g_gas g) /\ constructible g.
Proof. exact c54_meaning. Qed.
Print Assumptions C54_meaning.

(** When it returns. *)
Theorem C54_returns : forall (N : Num) (as_ ad ag : ndarray2 N) columns ps pd pg ss sd sg,
  fits as_ columns -> fits ad columns -> fits ag columns ->
  potential_ok as_ columns ps -> potential_ok ad columns pd -> potential_ok ag columns pg ->
  (forall c, In c columns -> known_column c) -> (forall c, In c needed_columns -> In c columns) ->
  (In "softening"%string columns -> length (nd_rows as_) = 1%nat /\ length (nd_rows ad) = 1%nat /\ length (nd_rows ag) = 1%nat) ->
  ((gives_potential columns ps <-> gives_potential columns pd) /\ (gives_potential columns ps <-> gives_potential columns pg)) ->
  exists g, read_npy as_ ad ag columns ps pd pg ss sd sg = Ok g.
Proof. exact c54_returns. Qed.
Print Assumptions C54_returns.

(** When it raises, and what. *)
Theorem C54_errors : forall (N : Num) (as_ ad ag : ndarray2 N) columns ps pd pg ss sd sg,
  let r := read_npy as_ ad ag columns ps pd pg ss sd sg in
  let shaped := (fits as_ columns /\ fits ad columns /\ fits ag columns) /\
                (potential_ok as_ columns ps /\ potential_ok ad columns pd /\ potential_ok ag columns pg) in
  (~ (fits as_ columns /\ fits ad columns /\ fits ag columns) -> r = Raise ValueError) /\
  (columns <> [] -> ~ shaped -> r = Raise ValueError) /\
  (forall c, shaped -> In c columns -> ~ known_column c -> r = Raise TypeError) /\
  (forall c, shaped -> In c needed_columns -> ~ In c columns -> r = Raise TypeError) /\
  (forall a, shaped -> In "softening"%string columns -> In a [as_; ad; ag] -> length (nd_rows a) <> 1%nat -> r = Raise TypeError) /\
  (shaped -> (forall c, In c columns -> known_column c) -> (forall c, In c needed_columns -> In c columns) -> ~ In "softening"%string columns ->
     ~ ((gives_potential columns ps <-> gives_potential columns pd) /\ (gives_potential columns ps <-> gives_potential columns pg)) -> r = Raise ValueError).
Proof. exact c54_errors. Qed.
Print Assumptions C54_errors.

(** The order of the columns does not matter, whatever the outcome. *)
Theorem C54_order : forall (N : Num) (as_ ad ag : ndarray2 N) columns order ps pd pg ss sd sg,
  Permutation order (seq 0 (length columns)) ->
  read_npy (reorder order as_) (reorder order ad) (reorder order ag) (map (fun j => nth j columns ""%string) order) ps pd pg ss sd sg =
  read_npy as_ ad ag columns ps pd pg ss sd sg.
Proof. exact c54_order. Qed.
Print Assumptions C54_order.

(** Nor do the values of the column id. *)
Theorem C54_id : forall (N : Num) (as_ ad ag bs bd bg : ndarray2 N) columns ps pd pg ss sd sg,
  same_but_id columns as_ bs -> same_but_id columns ad bd -> same_but_id columns ag bg ->
  read_npy as_ ad ag columns ps pd pg ss sd sg = read_npy bs bd bg columns ps pd pg ss sd sg.
Proof. exact c54_id. Qed.
Print Assumptions C54_id.

(** Not every galaxy that can be written can be read. *)
Theorem C50_every_refuted : exists (g : galaxy F64) (f' : h5 F64 Z),
  constructible g /\ to_hdf5 quiet [] 0%Z empty5 g None None None = (f', Ok tt) /\
  forall ss sd sg, read_hdf5 f' ss sd sg = Raise TypeError.
Proof. exact c50_every_refuted. Qed.
Print Assumptions C50_every_refuted.

Example EX_C50 : exists g, sampleG = Ok g /\ constructible g /\ no_nan g /\
  rmap gshow (read_hdf5 (written sampleG None empty5) (fZ 0) (fZ 0) (fZ 0)) = Ok (gshow g) /\
  rmap (fun g => map fshow [p_soft (g_stars g); p_soft (g_dm g); p_soft (g_gas g)]) (read_hdf5 (written g_without None empty5) (fZ 7) (fZ 8) (fZ 9)) = Ok (map sZ [7; 8; 9]%Z).
Proof. exact ex_c50. Qed.

Example EX_C51 : rmap (fun g => oshow (p_pot (g_stars g))) (read_hdf5 (written g_without None (written g_with None foreign)) (fZ 0) (fZ 0) (fZ 0)) = Ok None /\
  rmap (fun g => oshow (p_pot (g_gas g))) (read_hdf5 (written g_with None (written g_without None foreign)) (fZ 0) (fZ 0) (fZ 0)) = Ok (Some [sZ (-3)]) /\
  exn_of (read_hdf5 foreign (fZ 0) (fZ 0) (fZ 0)) = Some KeyError /\
  option_map (fun o => match o with HTable _ => None | HOther e => Some e end) (dget (h_objs (written g_without None (written g_with None foreign))) "notes"%string) = Some (Some ValueError).
Proof. exact ex_c51. Qed.

Theorem C52_atomic_refuted : exists (g0 g1 : galaxy F64) (f0 f' : h5 F64 Z),
  constructible g0 /\ constructible g1 /\ to_hdf5 quiet [] 0%Z empty5 g0 None None None = (f0, Ok tt) /\
  to_hdf5 (only 4) [] 0%Z f0 g1 None None None = (f', Raise OSError) /\
  exists g', read_hdf5 f' (fZ 0) (fZ 0) (fZ 0) = Ok g' /\ ~ read_back (fZ 0) (fZ 0) (fZ 0) g0 g' /\ ~ read_back (fZ 0) (fZ 0) (fZ 0) g1 g'.
Proof. exact c52_atomic_refuted. Qed.
Print Assumptions C52_atomic_refuted.

(** Interrupted after the removal of the old dark matter; refused with overwrite=False; and a
    file without stars, which is changed although the call fails. *)
Example EX_C52 : exists g, g_with = Ok g /\
  let f0 := written g_without None empty5 in
  exn_of (read_hdf5 (fst (to_hdf5 (only 3) [] 0%Z f0 g None None None)) (fZ 0) (fZ 0) (fZ 0)) = Some KeyError /\
  exn_of (read_hdf5 (fst (to_hdf5 (only 2) [] 0%Z f0 g None None None)) (fZ 0) (fZ 0) (fZ 0)) = Some ValueError /\
  exn_of (snd (to_hdf5 quiet [] 0%Z f0 g None None (Some false))) = Some OSError /\
  exn_of (snd (to_hdf5 quiet [] 0%Z foreign g None None (Some false))) = Some OSError /\
  dkeys (h_objs (fst (to_hdf5 quiet [] 0%Z foreign g None None (Some false)))) = ["notes"; "gas"; "stars"; "dark_matter"]%string.
Proof. exact ex_c52. Qed.

Example EX_C53 : h_attrs (written g_with (Some [("url"%string, 8%Z); ("mine"%string, 9%Z)]) (written g_without None foreign)) =
  [("owner", 1); ("url", 8); ("utc_timestamp", 5); ("mine", 9)]%string%Z /\
  h_attrs (written g_with (Some [("utc_timestamp"%string, 8%Z)]) foreign) = [("owner", 1); ("url", 3); ("utc_timestamp", 8)]%string%Z.
Proof. exact ex_c53. Qed.

Example EX_C54 :
  rmap (fun g => (map shows [p_m (g_stars g); p_x (g_stars g); p_y (g_stars g); p_z (g_stars g); p_vx (g_stars g); p_vy (g_stars g); p_vz (g_stars g)], oshow (p_pot (g_stars g)), fshow (p_soft (g_stars g))))
    (read_npy npy_s npy_d npy_d npy_cols (Some (fZs [-1])%Z) (Some (fZs [-2])%Z) (Some (fZs [-3])%Z) (fZ 1) (fZ 2) (fZ 3)) =
  Ok ([[sZ 1; sZ 11]; [sZ 2; sZ 12]; [sZ 3; sZ 13]; [sZ 4; sZ 14]; [sZ 5; sZ 15]; [sZ 6; sZ 16]; [sZ 7; sZ 17]], Some [sZ (-1); sZ (-1)], sZ 1) /\
  exn_of (read_npy npy_s npy_d npy_d npy_cols (Some (fZs [-1])%Z) None None (fZ 1) (fZ 2) (fZ 3)) = Some ValueError /\
  exn_of (read_npy npy_s npy_d npy_d npy_cols (Some (fZs [-1; -1; -1])%Z) (Some (fZs [-2])%Z) (Some (fZs [-3])%Z) (fZ 1) (fZ 2) (fZ 3)) = Some ValueError /\
  exn_of (read_npy npy_s npy_d npy_d ["vz"; "id"; "m"; "z"; "x"; "vx"; "y"; "w"]%string None None None (fZ 1) (fZ 2) (fZ 3)) = Some TypeError /\
  exn_of (read_npy npy_s npy_d npy_d ["vz"; "id"; "m"; "z"; "x"; "vx"; "y"; "softening"]%string None None None (fZ 1) (fZ 2) (fZ 3)) = Some TypeError /\
  exn_of (read_npy npy_s npy_d npy_d ["vz"; "id"; "m"; "z"; "x"; "vx"; "y"; "y"]%string None None None (fZ 1) (fZ 2) (fZ 3)) = Some ValueError.
Proof. exact ex_c54. Qed.

(** Reordering the columns of that example. *)
Example EX_C54_order : Permutation [4; 6; 3; 2; 5; 7; 0; 1]%nat (seq 0 (length npy_cols)) /\
  map (fun j => nth j npy_cols ""%string) [4; 6; 3; 2; 5; 7; 0; 1]%nat = ["x"; "y"; "z"; "m"; "vx"; "vy"; "vz"; "id"]%string /\
  map shows (nd_rows (reorder [4; 6; 3; 2; 5; 7; 0; 1]%nat npy_d)) = [map sZ [22; 23; 24; 21; 25; 26; 27; 9]]%Z.
Proof. exact ex_c54_order. Qed.
