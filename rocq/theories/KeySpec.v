(* KeySpec.v -- the keys of the SAVER scheme as formulas in the secrets (paper notation), the replay RNG and the
   distributed key generation script.  This is the specification side: no function of the model is used except in the
   two scripts at the end, which call the API in the order the repository's own tests do. *)
From Verif Require Import Base Algebra Setup Keygen Spec.

(* Encryption key for secrets s_1..s_n, t_0, t_1..t_n, with delta = delta*G, gamma = gamma_g:
   X_0 = delta, X_i = s_i delta, Y_i = t_i g_i, Z_i = t_i H (i = 0..n), P_1 = (t_0 + sum s_i t_i) delta,
   P_2 = (1 + sum s_i) gamma. *)
Definition ek_formula {E} (gens : encryption_gens E) (g_i : list (G1 E)) (delta gamma : G1 E)
    (s : list (Fr E)) (t0 : Fr E) (t : list (Fr E)) : encryption_key E :=
  EncryptionKey delta
    (map (fun x => x [*] delta) s)
    (scale t g_i)
    (map (fun x => x [*] eg_H gens) (t0 :: t))
    (fadd t0 (fdot s t) [*] delta)
    (fadd fone (fsum s) [*] gamma).

(* Decryption key: V_0 = rho H, V_1,i = s_i v_i H, V_2,i = v_i rho H. *)
Definition dk_formula {E} (gens : encryption_gens E) (rho : Fr E) (s v : list (Fr E)) : decryption_key E :=
  DecryptionKey (rho [*] eg_H gens)
    (map (fun '(a, b) => fmul a b [*] eg_H gens) (combine s v))
    (map (fun b => fmul b rho [*] eg_H gens) v).

(* One party's contribution *)
Definition ekp_formula {E} (gens : encryption_gens E) (g_i : list (G1 E)) (delta gamma : G1 E)
    (s : list (Fr E)) (t0 : Fr E) (t : list (Fr E)) : ek_partial E :=
  FEncryptionKeyPartial delta
    (map (fun x => x [*] delta) s)
    (scale t g_i)
    (map (fun x => x [*] eg_H gens) (t0 :: t))
    (fsum s [*] gamma).

(* A random number generator that replays a given tape (zeroes afterwards). *)
Definition replay_rng (E : pairing) : rng_impl E :=
  RngImpl E (list (Fr E))
    (fun l => match l with [] => (fzero, []) | x :: l' => (x, l') end)
    (fun l => (gzero, l)) (fun l => (gzero, l)).

(* A key pair some run of keygen returned (any generator, any state). *)
Definition from_keygen {E} (b : Z) (gens : encryption_gens E) (g_i : list (G1 E)) (delta gamma : G1 E)
    (sk : Fr E) (ek : encryption_key E) (dk : decryption_key E) : Prop :=
  exists (R : rng_impl E) (st st' : rng_st R), keygen R b gens g_i delta gamma st = Ok (sk, ek, dk, st').

(* A contribution some run of FkeygenPartial returned. *)
Definition from_partial {E} (b : Z) (gens : encryption_gens E) (g_i : list (G1 E)) (delta gamma : G1 E)
    (p : secret_key_st E * ek_partial E) : Prop :=
  exists (R : rng_impl E) (st st' : rng_st R), FkeygenPartial R b gens g_i delta gamma st = Ok (fst p, snd p, st').

(* A destination key pair some run of Fkeygen_dest returned. *)
Definition from_dest {E} (gens : encryption_gens E) (sk : Fr E) (pk : ek_dest E) : Prop :=
  exists (R : rng_impl E) (st st' : rng_st R), Fkeygen_dest R gens st = Ok (sk, pk, st').

(* The distributed key generation as run in /repo/src/tests.rs: every party has called FkeygenPartial; the common key
   is combined; every party makes its P_1 share; the shares are combined; the key is finalised. *)
Definition dkg {E} (gamma : G1 E) (parties : list (secret_key_st E * ek_partial E)) : outcome (encryption_key E) :=
  ek <- combineEKs gamma (map snd parties) ;;
  shares <- mapM (fun p => genP1share ek (fst p)) parties ;;
  p1 <- combineP1share shares ;;
  Ok (keygenFinal ek p1).

(* An encryption key obtained from the distributed key generation by one or more honest parties. *)
Definition from_dkg {E} (b : Z) (gens : encryption_gens E) (g_i : list (G1 E)) (delta gamma : G1 E)
    (parties : list (secret_key_st E * ek_partial E)) (ek : encryption_key E) : Prop :=
  parties <> [] /\ Forall (from_partial b gens g_i delta gamma) parties /\ dkg gamma parties = Ok ek.

(* Under the secret vector s (one scalar per chunk) the ciphertext body (c_0, c) opens to the chunk values ms:
   c_i = s_i c_0 + ms_i g_i for every chunk i. *)
Definition opens_to {E} (s : list (Fr E)) (g_i : list (G1 E)) (c_0 : G1 E) (c : list (G1 E)) (ms : list Z) : Prop :=
  length c = length s /\ length ms = length s /\
  forall i, (i < length s)%nat ->
    0 <= nth i ms 0 /\
    nth i c gzero = (nth i s fzero [*] c_0) [+] (of_Z (nth i ms 0) [*] nth i g_i gzero).

(* The secret vector behind an encryption key: X_i = s_i X_0, and the decryption key belongs to it. *)
Definition secret_of {E} (gens : encryption_gens E) (s : list (Fr E)) (sk : Fr E) (ek : encryption_key E)
    (dk : decryption_key E) : Prop :=
  ek_X ek = map (fun x => x [*] ek_X_0 ek) s /\
  exists v, length v = length s /\ dk = dk_formula gens sk s v.

(* Non-degeneracy, on public values only: no entry of V_2 and none of the first n generators is the identity. *)
Definition nondegenerate {E} (dk : decryption_key E) (g_i : list (G1 E)) (n : nat) : Prop :=
  Forall (fun x => x <> gzero) (dk_V_2 dk) /\ Forall (fun x => x <> gzero) (firstn n g_i).
