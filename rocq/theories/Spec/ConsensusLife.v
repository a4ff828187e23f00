(* The states one node can be in at a height, with nothing assumed about its
   surroundings: votes under any name, proposals, block parts, answers of the
   block manager, timers and synced blocks come in any order and with any
   content; its disk may fail; and it may stop and start again from logs with
   any content whatever. *)
From Coq Require Import ZArith List Bool Arith.
From Verif Require Import Model.Votes Model.Consensus.
Import ListNotations.

Inductive life (C : chain) (me : option nat) : node -> Prop :=
| life_new : life C me (node_new (c_n C))
| life_event : forall s E e, life C me s -> life C me (handle C me E e s)
| life_restart : forall E f, life C me (start C me E f).
