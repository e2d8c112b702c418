(** * Specification: executions of batch calls with fused multiply-add *)

From Coq Require Import ZArith List.
From Verif Require Import Go GoFloat Cmd Parallel Fused FusedBatch.

(** the cell of predictions a goroutine is about to load or store *)
Definition fused_access {L : Type} (wk : fworker L) : option Z :=
  match wk with
  | FWrite _ _ _ _ (FCmd (CSet i _) :: _) => Some i
  | FWrite _ _ _ _ (FCmd (CAdd i _) :: _) => Some i
  | FWrite _ _ _ _ (FCmd (CMul i _) :: _) => Some i
  | FWrite _ _ _ _ (FMulAdd i _ _ :: _) => Some i
  | _ => None
  end.

(** no execution from [c0] runs forever, crashes, or gets stuck before the call has returned *)
Definition fused_completes {L : Type} (j : fjob L) (c0 : fconfig L) : Prop :=
  (~ exists run : nat -> fconfig L, run O = c0 /\ forall k, fstep j (run k) (run (S k))) /\
  (forall c, fsteps j c0 c -> (exists s, c = FRunning s) /\ ((exists m, freturned c m) \/ exists c', fstep j c c')).
