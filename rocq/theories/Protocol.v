(* Protocol.v -- the API calls of /repo/src/tests.rs put in sequence, for any number of ciphertexts and parties (specification
   side: only calls of modelled API functions, in the order of the repository's own test, no new logic). *)
From Verif Require Import Base Algebra Utils Setup Keygen Encryption Spec KeySpec.

(* ct is what some run of encrypt_decomposed_message returned for the chunks m, with randomness r *)
Definition encrypts {E} (ek : encryption_key E) (g_i : list (G1 E)) (m : list Z) (ct : list (G1 E)) (r : Fr E) : Prop :=
  exists (R : rng_impl E) (st st' : rng_st R), encrypt_decomposed_message R m ek g_i st = Ok (ct, r, st').

(* adding up any number of ciphertexts, one add_cts call after the other (tests.rs:65 for two) *)
Definition sum_cts {E} (cts : list (list (G1 E))) : outcome (list (G1 E)) :=
  match cts with
  | [] => Panic
  | ct :: rest => foldM add_cts rest ct
  end.

(* share = (w, g_r) is what some run of re_encrypt_share returned for the party with secret sk *)
Definition share_of {E} (gens : encryption_gens E) (c_0 : G1 E) (c : list (G1 E)) (ekd : ek_dest E) (sk : secret_key_st E)
    (share : list (G1 E) * G1 E) : Prop :=
  exists (R : rng_impl E) (st st' : rng_st R), re_encrypt_share R gens c_0 c ekd sk st = Ok (fst share, snd share, st').

(* combining any number of shares, one combine_re_encrypt_share call after the other (tests.rs:157 for two) *)
Definition combine_shares {E} (shares : list (list (G1 E) * G1 E)) : outcome (list (G1 E) * G1 E) :=
  match shares with
  | [] => Panic
  | s0 :: rest => foldM (fun a s => combine_re_encrypt_share (snd a) (snd s) (fst a) (fst s)) rest s0
  end.

(* the re-encrypted ciphertext, a flat vector g_r :: chunks (tests.rs:164) *)
Definition reencrypt {E} (c : list (G1 E)) (shares : list (list (G1 E) * G1 E)) : outcome (list (G1 E)) :=
  '(w, g_r) <- combine_shares shares ;; combine_ct_with_w c g_r w.
