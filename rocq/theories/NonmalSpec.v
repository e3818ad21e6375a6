(* NonmalSpec.v -- specification of C73: what a prover that has seen honest ciphertexts can get accepted *)
From Verif Require Import Base Algebra Setup Keygen Encryption.

(* ct with an encryption of zeros under randomness rho added to it *)
Definition rerandomized {E : pairing} (ek : encryption_key E) (rho : Fr E) (ct : ciphertext E) : ciphertext E :=
  Ciphertext (ct_X_r ct [+] (rho [*] ek_X_0 ek)) (map (fun cX => fst cX [+] (rho [*] snd cX)) (combine (ct_enc_chunks ct) (ek_X ek)))
    (ct_commitment ct [+] (rho [*] ek_P_1 ek)).
