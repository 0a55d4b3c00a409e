(** Concrete histories used to show that the hypotheses of the theorems are
    met by non-trivial cases, and the counterexamples for the refuted
    properties. *)
From stdpp Require Import prelude list gmap.
From Verif Require Import Base Api ModelSparse ModelEntity ModelGroup ModelWorld ModelQuery ModelStep
  Spec History Rules.

(** Two types, five entities, a batch, a full-owning group, attaches, detaches,
    an overwrite, removals and a recycled id. *)
Definition sample : list (op nat) :=
  [ Register 1; Register 2; CreateEntities 3; BatchAttach 1 4 1 [11; 12; 13];
    CreateEntity; CreateEntity; Attach 2 2 22; Attach 1 5 15; Attach 2 5 25;
    MakeGroup KFull 1 2; Attach 2 1 21; Detach 1 2; Attach 1 4 14; Attach 1 4 144;
    Attach 2 4 24; WriteComp 2 4 240; RemoveEntity 1 [1; 2]; RemoveEntity 3 [1; 2];
    CreateEntity; Attach 1 3 33 ].
Example sample_rules : rules sample.
Proof. check_rules. Qed.

(** Four types, groups of all three kinds, made in an admissible order. *)
Definition sample4 : list (op nat) :=
  [ Register 1; Register 2; Register 3; Register 4; CreateEntities 4;
    MakeGroup KNon 2 4; MakeGroup KPart 3 2; MakeGroup KFull 1 4;
    Attach 1 1 11; Attach 4 1 41; Attach 2 2 22; Attach 3 2 32; Attach 4 2 42; Attach 1 2 12;
    Attach 1 3 13; Attach 2 3 23; Attach 3 3 33; Attach 4 3 43;
    RemoveEntity 2 [1; 3; 2; 4]; Detach 1 1; Attach 1 1 111 ].
Example sample4_rules : rules sample4.
Proof. check_rules. Qed.
