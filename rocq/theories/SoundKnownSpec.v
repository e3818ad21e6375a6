(* SoundKnownSpec.v -- executions of setup_for_groth16 in which the secrets of decryption are given (for C76): the coins are
   alpha, beta, gamma, delta, the evaluation point and t_0..t_n; rho, s_1..s_n and v_1..v_n are fixed beforehand and known to the prover. *)
From Verif Require Import Base Algebra.

Definition known_tape {E : pairing} (rho : Fr E) (s v : list (Fr E)) (coins : list (Fr E)) : list (Fr E) :=
  firstn 5 coins ++ rho :: s ++ skipn 5 coins ++ v.
