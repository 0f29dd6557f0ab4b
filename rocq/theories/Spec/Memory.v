(** What a client and the operating system see of the allocator. *)
From Coq Require Import Ascii String List NArith ZArith Bool.
From Verif Require Import Base Model.Memory.
Import ListNotations.

(** blocks currently owned by the process according to the system calls made: (address, bytes) *)
Definition os_step (owned : list (N * N)) (c : oscall) : list (N * N) :=
  match c with
  | OsAlloc p b => (p, b) :: owned
  | OsFree p => filter (fun e => negb (fst e =? p)%N) owned
  end.
Definition os_run (owned : list (N * N)) (cs : list oscall) : list (N * N) := fold_left os_step cs owned.
Definition total (owned : list (N * N)) : N := fold_right (fun e a => snd e + a)%N 0%N owned.

(** the operating system never hands out an address that is still owned *)
Definition os_fresh (owned : list (N * N)) (os : option N) : Prop :=
  forall p, os = Some p -> ~ In p (map fst owned).

(** [reach nd limit m owned held]: after some history of calls the allocator is in state m, the process owns [owned]
    and the client holds the blocks [held].  The client frees only blocks it holds. *)
Inductive reach (nd : bool) (limit : N) : mem -> list (N * N) -> list N -> Prop :=
| R_init : reach nd limit (init_mem limit) [] []
| R_alloc m owned held size os m' p cs :
    reach nd limit m owned held -> os_fresh owned os ->
    align nd m size os = Ok (m', p, cs) ->
    reach nd limit m' (os_run owned cs) (p :: held)
| R_free m owned held p m' cs :
    reach nd limit m owned held -> In p held ->
    free_mem nd m p = (m', cs) ->
    reach nd limit m' (os_run owned cs) (remove N.eq_dec p held)
| R_cleanup m owned held m' cs :
    reach nd limit m owned held -> cleanup nd m = (m', cs) ->
    reach nd limit m' (os_run owned cs) held.

(** size strings *)
Inductive unit_of : str -> N -> Prop :=
| U_none : unit_of [] 1
| U_K : unit_of (lit "K") (2 ^ 10)
| U_M : unit_of (lit "M") (2 ^ 20)
| U_G : unit_of (lit "G") (2 ^ 30)
| U_T : unit_of (lit "T") (2 ^ 40).
Definition size_string (s : str) (n : N) : Prop :=
  exists ds u f b, s = ds ++ u ++ b /\ ds <> [] /\ Forall (fun c => is_digit c = true) ds /\
    unit_of u f /\ (b = [] \/ b = lit "B") /\ n = (dec_val ds * f)%N.
