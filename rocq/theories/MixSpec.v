(* MixSpec.v -- a mixer and an observer of its work (for C91): re-randomized ciphertexts shown next to the original ones *)
From Verif Require Import Base Algebra Setup Keygen Encryption KeySpec Groth16 SoundSpec PrivacySpec.

(* A mixer: adds an encryption of zeros (encrypt_decomposed_message, /repo/src/encryption.rs:353) to every ciphertext (add_cts, line 440), one after the other. *)
Fixpoint mix {E} (R : rng_impl E) (ek : encryption_key E) (g_i : list (G1 E)) (cts : list (ciphertext E)) (st : rng_st R) : outcome (list (list (G1 E)) * rng_st R) :=
  match cts with
  | [] => Ok ([], st)
  | ct :: cts' =>
    '(z, _, st1) <- encrypt_decomposed_message R (repeat 0 (length (ct_enc_chunks ct))) ek g_i st ;;
    ct' <- add_cts (ct_X_r ct :: ct_enc_chunks ct ++ [ct_commitment ct]) z ;;
    '(rest, st2) <- mix R ek g_i cts' st1 ;;
    Ok (ct' :: rest, st2)
  end.

(* the elements of a list in the order told *)
Fixpoint chosen {A} (order : list nat) (l : list A) : list A :=
  match order with
  | [] => []
  | i :: order' => match nth_error l i with Some x => x :: chosen order' l | None => chosen order' l end
  end.

(* One execution on given coins: set up, encrypt the messages with proofs, let the mixer re-randomize them in the order told, using the coins that
   are left, and show the observer everything: the public elements, all ciphertexts and proofs, and what the mixer makes of them.  The result is its guess. *)
Definition experiment_mix {E : pairing} (pf : profile) (B : groth16_backend E) (gens : encryption_gens E) (b : Z) (O : observer E) (msgs : list (Fr E)) (order : list nat) (coins : list (Fr E)) : bool :=
  match setup_for_groth16 B (replay_rng E) b gens coins with
  | Ok (pk, sk, ek, dk, rest) =>
    match encrypt_all pf B (replay_rng E) msgs ek pk b rest, get_gs_for_encryption (gpk_vk (pk_pk pk)) with
    | Ok (cps, rest'), Ok g_i =>
      match mix (replay_rng E) ek g_i (chosen order (map fst cps)) rest' with
      | Ok (mixed, _) => observe O (table_g1 gens pk ek cps ++ concat mixed) (table_g2 gens pk ek dk cps)
      | _ => false
      end
    | _, _ => false
    end
  | _ => false
  end.
