(** Property C13: reference counted objects (src/tools/Collector.h). *)
From Coq Require Import List ZArith Bool Arith Lia.
From Verif Require Import Base Model.Collector Spec.Collector Proofs.Collector.
Import ListNotations.

(** After every history h: the next operation destroys exactly the objects whose references it exhausts, each once; an
    object is reported allocated iff references remain; the element count is the number of live objects. *)
Theorem C13_refcounts : forall h,
  (forall o, NoDup (snd (cstep (crun h) o)) /\ forall p, In p (snd (cstep (crun h) o)) <-> must_destroy h o p) /\
  (forall p, is_allocated (crun h) p = true <-> 0 < refs h p) /\
  (exists live, NoDup live /\ (forall p, In p live <-> 0 < refs h p) /\ elements (crun h) = length live).
Proof. exact collector_spec. Qed.
Print Assumptions C13_refcounts.

Example C13_example :
  let h := [Reg 5; Reg 7; Reg 5; Del 9; Del 5] in
  refs h 5 = 1 /\ refs h 7 = 1 /\ refs h 9 = 0 /\
  snd (cstep (crun h) (Del 5)) = [5] /\ snd (cstep (crun h) (Del 9)) = [] /\ snd (cstep (crun h) DelAll) = [5; 7].
Proof. vm_compute. repeat split. Qed.
