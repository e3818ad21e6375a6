(* Macros.v -- model of join! and unnest_tuple! of /repo/src/macros.rs (concat_slices! is list append, inlined where it is used).
   The expressions given to join! may have different types; the model puts their values in one type V.
   An expression is Some v if it evaluates to v and None if it panics; the results of join! are read the same way. *)
From Verif Require Import Base.

Section Join.
Context {V : Type}.

(* nested tuples: (a, (b, c)) is Nest a (Nest b (Last c)) *)
Inductive nested := Last (v : V) | Nest (v : V) (rest : nested).

(* src/macros.rs:86-118 unnest_tuple!: one arm for each number of patterns from 1 to 6, matched against the nested tuple; any other
   combination does not compile (None) *)
Definition unnest_tuple (patterns : nat) (t : nested) : option (list V) :=
  match patterns, t with
  | 1%nat, Last a => Some [a]
  | 2%nat, Nest a (Last b) => Some [a; b]
  | 3%nat, Nest a (Nest b (Last c)) => Some [a; b; c]
  | 4%nat, Nest a (Nest b (Nest c (Last d))) => Some [a; b; c; d]
  | 5%nat, Nest a (Nest b (Nest c (Nest d (Last e)))) => Some [a; b; c; d; e]
  | 6%nat, Nest a (Nest b (Nest c (Nest d (Nest e (Last f))))) => Some [a; b; c; d; e; f]
  | _, _ => None
  end.

(* A running join: an expression being evaluated (with the value it will have), one that has returned or panicked, or rayon::join of an
   expression and a running join.  rayon::join waits for both sides, also when one of them panics. *)
Inductive task := Busy (e : option V) | Done (v : V) | Panicked.
Inductive running := Single (t : task) | Both (t : task) (rest : running).

(* src/macros.rs:58-70, the arms starting with @: Flattened rayon::join *)
Fixpoint join_inner (e : option V) (es : list (option V)) : running :=
  match es with
  | [] => Single (Busy e)
  | e' :: es' => Both (Busy e) (join_inner e' es')
  end.

(* the scheduler lets any busy expression finish *)
Inductive task_step : task -> task -> Prop :=
| finish v : task_step (Busy (Some v)) (Done v)
| fail : task_step (Busy None) Panicked.
Inductive run_step : running -> running -> Prop :=
| step_single t t' : task_step t t' -> run_step (Single t) (Single t')
| step_left t t' r : task_step t t' -> run_step (Both t r) (Both t' r)
| step_right t r r' : run_step r r' -> run_step (Both t r) (Both t r').
Inductive run_steps : nat -> running -> running -> Prop :=
| run_refl r : run_steps 0 r r
| run_more n r r' r'' : run_step r r' -> run_steps n r' r'' -> run_steps (S n) r r''.

(* what rayon::join gives back once both sides are over: the nested tuple, or the panic of one of the sides *)
Fixpoint finished (r : running) : option (option nested) :=
  match r with
  | Single (Done v) => Some (Some (Last v))
  | Single Panicked => Some None
  | Single (Busy _) => None
  | Both t r' =>
    match t, finished r' with
    | Busy _, _ | _, None => None
    | Panicked, Some _ => Some None
    | Done v, Some (Some n) => Some (Some (Nest v n))
    | Done _, Some _ => Some None
    end
  end.

(* src/macros.rs:57-76 join! with the feature parallel: some schedule makes it return out *)
Definition join_par (e : option V) (es : list (option V)) (out : option (list V)) : Prop :=
  exists n r o, run_steps n (join_inner e es) r /\ finished r = Some o /\
    match o with
    | Some t => exists l, unnest_tuple (S (length es)) t = Some l /\ out = Some l
    | None => out = None
    end.

(* src/macros.rs:78-85 join! without that feature: the tuple of the expressions, evaluated from left to right *)
Definition join_seq (e : option V) (es : list (option V)) : option (list V) :=
  fold_right (fun x acc => match x, acc with Some v, Some l => Some (v :: l) | _, _ => None end) (Some []) (e :: es).

End Join.
Arguments nested : clear implicits.
Arguments task : clear implicits.
Arguments running : clear implicits.
