(** * Vocabulary of the statements about splitting recordings over several histograms *)
From Verif Require Import Machine Log2Model HistModel Spec.

(** [h'] is the result of adding the histograms [ss] to [h] one after the other, every one accepted *)
Inductive merges : hist -> list hist -> hist -> Prop :=
| merges_nil h : merges h [] h
| merges_cons h s ss h1 h2 : add h s = Ret (h1, ROk tt) -> merges h1 ss h2 -> merges h (s :: ss) h2.
