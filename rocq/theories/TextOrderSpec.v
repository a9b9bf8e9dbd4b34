(** The order in which texts are sorted: character by character, by their codes, a text before
    its continuations ([std::string::compare], [std::char_traits<char>]). *)
From Coq Require Import NArith Ascii List.
Import ListNotations.

Inductive sorts_before : list ascii -> list ascii -> Prop :=
| before_end c t : sorts_before [] (c :: t)
| before_here a b s t : (N_of_ascii a < N_of_ascii b)%N -> sorts_before (a :: s) (b :: t)
| before_next c s t : sorts_before s t -> sorts_before (c :: s) (c :: t).
