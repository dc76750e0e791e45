(** Property theorems. Property lemmas about centring and aligning one after the other: C93. Proofs are in ChainThms.v. *)
From Verif Require Import Py Num RX F64 Np Df Data DataFacts Center Align Spec Ex DataThms CenterFacts CenterThms AlignFacts AlignThms SpecR SpecAlAcc AlAccFacts AlAccRot AlAccSum AlAccThms SpecCirc CircFacts SpecChain ChainFacts ChainThms.
From Flocq Require Import Core BinarySingleNaN.
From Coq Require Import Lra Lia.
Local Open Scope R_scope.

(** Centring and then aligning a galaxy in floating point: in the result the angular momentum of every
    particle along z is the part of its angular momentum about the particle of lowest potential along
    the total angular momentum of the stars, and the projected one is the length of the rest; both up
    to a number of units of rounding, enlarged by how much the angular momenta of the stars cancel.
    The kinetic energy is that before. *)
Theorem C93_chain : forall (S : Num) (RS : Rounded S) u K, graceful RS u -> bpow radix2 (-100) <= u -> u <= bpow radix2 (-40) -> sums_well RS u K ->
  forall (g h1 : galaxy S) ls ld lg, constructible g ->
  reads_set RS (g_stars g) ls -> reads_set RS (g_dm g) ld -> reads_set RS (g_gas g) lg -> center g = Ok h1 ->
  exists i o, lowest g i /\ nth_error (ls ++ ld ++ lg) i = Some o /\
    (let seen := map (seen_from o) in let k := K (length ls) in
     strong_spin u k (seen ls) -> (forall q, In q (seen ld) \/ In q (seen lg) -> within q) ->
     exists h2, star_align h1 None = Ok h2 /\ constructible h2 /\
       set_near RS u k (seen ls) (g_stars h2) (seen ls) /\ set_near RS u k (seen ls) (g_dm h2) (seen ld) /\
       set_near RS u k (seen ls) (g_gas h2) (seen lg)).
Proof. exact c93_chain. Qed.
Print Assumptions C93_chain.

(** In particular in double precision. *)
Theorem C93_double : forall (g h1 : galaxy F64) ls ld lg, constructible g ->
  let RS := F64_rounded (seqsum 53 1024 p53 e1024) in let u := / IZR (2 ^ 53) in let k := 2 * INR (length ls) in
  reads_set RS (g_stars g) ls -> reads_set RS (g_dm g) ld -> reads_set RS (g_gas g) lg -> center g = Ok h1 ->
  exists i o, lowest g i /\ nth_error (ls ++ ld ++ lg) i = Some o /\
    (let seen := map (seen_from o) in
     strong_spin u k (seen ls) -> (forall q, In q (seen ld) \/ In q (seen lg) -> within q) ->
     exists h2, star_align h1 None = Ok h2 /\ constructible h2 /\
       set_near RS u k (seen ls) (g_stars h2) (seen ls) /\ set_near RS u k (seen ls) (g_dm h2) (seen ld) /\
       set_near RS u k (seen ls) (g_gas h2) (seen lg)).
Proof. exact c93_double. Qed.
Print Assumptions C93_double.

(** The hypotheses are met: the stars as seen from the particle of lowest potential have a strong
    spin.  The run gives an angular momentum along z near sqrt 2 for both stars. *)
Example EX_C93 : constructible exC_gal /\
  (let RS := F64_rounded (seqsum 53 1024 p53 e1024) in
   reads_set RS (g_stars exC_gal) exC_stars /\ reads_set RS (g_dm exC_gal) exC_dark /\ reads_set RS (g_gas exC_gal) []) /\
  (exists h1, center exC_gal = Ok h1) /\
  (forall i o, lowest exC_gal i -> nth_error (exC_stars ++ exC_dark ++ []) i = Some o ->
     strong_spin (/ IZR (2 ^ 53)) (2 * INR 2) (map (seen_from o) exC_stars) /\
     forall q, In q (map (seen_from o) exC_dark) \/ In q (map (seen_from o) []) -> within q) /\
  (do h1 <- center exC_gal; do h2 <- star_align h1 None;
   Ok (map (fun x => andb (nlt (nlit 141421 100000) x) (nlt x (nlit 141422 100000))) (p_Jz (g_stars h2)))) = Ok [true; true].
Proof. exact ex_c93. Qed.
