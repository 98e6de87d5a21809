(** Words of a text. *)
From Verif Require Import Base MnemonicModel.

(** [text_words t ws]: the words of [t], in order, are [ws] - the maximal non-empty
    pieces of [t] without white space. *)
Inductive text_words : text -> list text -> Prop :=
| words_end s : Forall (fun c => is_space c = true) s -> text_words s []
| words_more s w r ws :
    Forall (fun c => is_space c = true) s ->
    w <> [] -> Forall (fun c => is_space c = false) w ->
    (r = [] \/ exists c r', r = c :: r' /\ is_space c = true) ->
    text_words r ws ->
    text_words (s ++ w ++ r) (w :: ws).
