(** Specification vocabulary for "what changed in the document".  An address is the path of child
    indices from the XmlObject's node; the shell of a node is everything about it except its
    children's own content: name, attributes (in order), text, and the tails after its children (so also
    the number of children).  The shells at all addresses determine the document. *)
From Coq Require Import List.
From Verif Require Export XmlTree.
Import ListNotations.

Definition tag_of (n : node) : option qname := match n with Elem q _ _ _ => Some q | Misc _ => None end.

Definition shell (n : node) : option qname * list (qname * str) * option str * list (option str) :=
  (tag_of n, attrs_of n, text_of n, map snd (kids_of n)).

(** the documents agree at every address but [b] *)
Definition same_except (b : addr) (d d' : node) : Prop :=
  forall c, c <> b -> option_map shell (get_at c d') = option_map shell (get_at c d).

(** every node of [d] is still there, at the same place, with the same name, its attributes, its
    text, and its children's tails *)
Definition kept (d d' : node) : Prop :=
  forall c n, get_at c d = Some n -> exists n', get_at c d' = Some n' /\ tag_of n' = tag_of n /\
    (forall q v, attr_get q (attrs_of n) = Some v -> attr_get q (attrs_of n') = Some v) /\
    (forall s, text_of n = Some s -> text_of n' = Some s) /\
    (forall i k, nth_error (kids_of n) i = Some k -> option_map snd (nth_error (kids_of n') i) = Some (snd k)).

(** the shells do determine the document *)
Lemma same_shells_same n : forall n', (forall c, option_map shell (get_at c n') = option_map shell (get_at c n)) -> n' = n.
Proof.
  induction n as [q a t ks IH|s] using node_ind'; intros n' H.
  - pose proof (H []) as H0. cbn in H0. destruct n' as [q' a' t' ks'|s']; [|discriminate]. unfold shell in H0. cbn in H0.
    injection H0 as -> -> -> Hk. f_equal.
    assert (G : forall ks ks' : list (node * option str), map snd ks' = map snd ks -> Forall (fun k => forall n', (forall c, option_map shell (get_at c n') = option_map shell (get_at c (fst k))) -> n' = fst k) ks ->
       (forall i c, option_map shell (match nth_error ks' i with Some k => get_at c (fst k) | None => None end) =
                    option_map shell (match nth_error ks i with Some k => get_at c (fst k) | None => None end)) -> ks' = ks).
    { clear. induction ks as [|[k tl] ks IH]; intros [|[k' tl'] ks'] Hm Hf Hc; cbn in Hm; try discriminate; [reflexivity|].
      injection Hm as -> Hm. inversion Hf as [|? ? Hf1 Hf2]; subst. f_equal.
      - f_equal. apply Hf1. intros c. apply (Hc 0 c).
      - apply IH; auto. intros i c. apply (Hc (S i) c). }
    apply G; auto. intros i c. exact (H (i :: c)).
  - pose proof (H []) as H0. cbn in H0. destruct n' as [q' a' t' ks'|s']; [discriminate|]. unfold shell in H0. cbn in H0. congruence.
Qed.

(** the characters of XML 1.0 documents (production [2] Char) *)
Definition xml_character (c : N) : Prop :=
  (c = 9 \/ c = 10 \/ c = 13 \/ 32 <= c <= 55295 \/ 57344 <= c <= 65533 \/ 65536 <= c <= 1114111)%N.
