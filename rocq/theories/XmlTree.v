(** Model of the part of the lxml element tree that eulxml uses.  lxml is a dependency, not in /repo;
    its documented behaviour is transcribed here:
    - an element has a tag, ordered attributes, [text] (None or str) and children, each child with
      its own [tail] (the text that follows it);
    - comments and processing instructions are children too ([list(node)], [len], [index] see them);
    - [remove] drops the child together with its tail, [append]/[insert] add a child without tail;
    - [set] on an existing attribute keeps its position.
    Identity of nodes is modelled by their address (child indices from the root of the tree).
    SIMPLIFICATION: namespace prefixes are not stored (only URIs), as eulxml never reads them. *)
From Coq Require Import Arith.
From Verif Require Export PyStr.

Record qname := QN { q_ns : option str; q_local : str }.

Definition qeqb (a b : qname) : bool :=
  ostr_eqb (q_ns a) (q_ns b) && str_eqb (q_local a) (q_local b).

Lemma qeqb_eq a b : qeqb a b = true <-> a = b.
Proof.
  destruct a as [n l], b as [n' l']. unfold qeqb. cbn. rewrite andb_true_iff, ostr_eqb_eq, str_eqb_eq.
  split; [intros [-> ->]; reflexivity|intros [= -> ->]; auto].
Qed.
Lemma qeqb_refl a : qeqb a a = true.
Proof. now apply qeqb_eq. Qed.
Lemma qeqb_neq a b : qeqb a b = false <-> a <> b.
Proof. rewrite <- not_true_iff_false, qeqb_eq. tauto. Qed.
Lemma qeqb_sym a b : qeqb a b = qeqb b a.
Proof. destruct (qeqb a b) eqn:E, (qeqb b a) eqn:F; auto; rewrite ?qeqb_eq, ?qeqb_neq in *; congruence. Qed.

Inductive node :=
| Elem (q : qname) (ats : list (qname * str)) (txt : option str) (kids : list (node * option str))
| Misc (content : str).                     (* comment or processing instruction *)

Section NodeInd.
  Variable P : node -> Prop.
  Hypothesis HE : forall q ats txt kids, Forall (fun k => P (fst k)) kids -> P (Elem q ats txt kids).
  Hypothesis HM : forall s, P (Misc s).
  Fixpoint node_ind' (n : node) : P n :=
    match n with
    | Elem q ats txt kids =>
      HE q ats txt kids
        ((fix go (l : list (node * option str)) : Forall (fun k => P (fst k)) l :=
            match l with
            | [] => Forall_nil _
            | k :: l' => @Forall_cons _ (fun k => P (fst k)) k l'
                           (match k as k0 return P (fst k0) with (n0, t0) => node_ind' n0 end) (go l')
            end) kids)
    | Misc s => HM s
    end.
End NodeInd.

Definition ostr (o : option str) : str := match o with Some s => s | None => [] end.

(** [len(node)] and friends *)
Definition kids_of (n : node) : list (node * option str) :=
  match n with Elem _ _ _ k => k | Misc _ => [] end.
Definition attrs_of (n : node) : list (qname * str) :=
  match n with Elem _ a _ _ => a | Misc _ => [] end.
Definition text_of (n : node) : option str :=
  match n with Elem _ _ t _ => t | Misc s => Some s end.

(** XPath string-value of an element: the text of all descendants. *)
Fixpoint strval (n : node) : str :=
  match n with
  | Elem _ _ t ks => ostr t ++ flat_map (fun k => strval (fst k) ++ ostr (snd k)) ks
  | Misc _ => []
  end.

(** attributes *)
Fixpoint attr_get (q : qname) (l : list (qname * str)) : option str :=
  match l with
  | [] => None
  | (q', v) :: l' => if qeqb q q' then Some v else attr_get q l'
  end.
Fixpoint attr_set (q : qname) (v : str) (l : list (qname * str)) : list (qname * str) :=
  match l with
  | [] => [(q, v)]
  | (q', v') :: l' => if qeqb q q' then (q', v) :: l' else (q', v') :: attr_set q v l'
  end.
Fixpoint attr_del (q : qname) (l : list (qname * str)) : list (qname * str) :=
  match l with
  | [] => []
  | (q', v') :: l' => if qeqb q q' then l' else (q', v') :: attr_del q l'
  end.

(** element operations (on comments they are not used) *)
Definition set_text (v : option str) (n : node) : node :=
  match n with Elem q a _ k => Elem q a v k | Misc s => Misc (ostr v) end.
Definition set_attr (q : qname) (v : str) (n : node) : node :=
  match n with Elem q' a t k => Elem q' (attr_set q v a) t k | Misc s => n end.
Definition del_attr (q : qname) (n : node) : node :=
  match n with Elem q' a t k => Elem q' (attr_del q a) t k | Misc s => n end.
Definition set_kids (f : list (node * option str) -> list (node * option str)) (n : node) : node :=
  match n with Elem q' a t k => Elem q' a t (f k) | Misc s => n end.

Definition insert_nth {A} (i : nat) (x : A) (l : list A) : list A := firstn i l ++ x :: skipn i l.
Definition remove_nth {A} (i : nat) (l : list A) : list A := firstn i l ++ skipn (S i) l.

Definition append_kid (k : node) : node -> node := set_kids (fun l => l ++ [(k, None)]).
Definition insert_kid (i : nat) (k : node) : node -> node := set_kids (insert_nth i (k, None)).
Definition remove_kid (i : nat) : node -> node := set_kids (remove_nth i).

(** ** Addresses *)
Definition addr := list nat.

Fixpoint get_at (a : addr) (n : node) : option node :=
  match a with
  | [] => Some n
  | i :: a' => match nth_error (kids_of n) i with Some k => get_at a' (fst k) | None => None end
  end.

(** update of the node at an address; no effect if there is none *)
Fixpoint upd_nth {A} (i : nat) (f : A -> A) (l : list A) {struct l} : list A :=
  match l with
  | [] => []
  | x :: l' => match i with O => f x :: l' | S j => x :: upd_nth j f l' end
  end.

Fixpoint upd_at (a : addr) (f : node -> node) (n : node) : node :=
  match a with
  | [] => f n
  | i :: a' => set_kids (upd_nth i (fun k => (upd_at a' f (fst k), snd k))) n
  end.

Lemma nth_upd_nth {A} i j (f : A -> A) l :
  nth_error (upd_nth i f l) j = if Nat.eqb i j then option_map f (nth_error l j) else nth_error l j.
Proof.
  revert i j. induction l as [|x l IH]; intros i j; cbn.
  - destruct j; destruct (Nat.eqb _ _); reflexivity.
  - destruct i, j; cbn; try reflexivity. apply IH.
Qed.

Lemma upd_nth_length {A} i (f : A -> A) l : length (upd_nth i f l) = length l.
Proof. revert i. induction l as [|x l IH]; intros [|i]; cbn; auto. Qed.

Lemma get_upd_same a f n m : get_at a n = Some m -> get_at a (upd_at a f n) = Some (f m).
Proof.
  revert n. induction a as [|i a IH]; intros n H; cbn in *; [congruence|].
  destruct n as [q ats t ks|s]; cbn in *; [|destruct i; discriminate].
  rewrite nth_upd_nth, Nat.eqb_refl. destruct (nth_error ks i) as [k|]; [|discriminate]. cbn. auto.
Qed.

Lemma get_at_app a b n : get_at (a ++ b) n = match get_at a n with Some m => get_at b m | None => None end.
Proof.
  revert n. induction a as [|i a IH]; intros n; cbn; [reflexivity|].
  destruct (nth_error (kids_of n) i); [apply IH|reflexivity].
Qed.

Lemma upd_at_app a b f n : upd_at (a ++ b) f n = upd_at a (upd_at b f) n.
Proof.
  revert n. induction a as [|i a IH]; intros n; cbn; [reflexivity|].
  destruct n as [q ats t ks|s]; cbn; [|reflexivity]. f_equal.
  revert i. induction ks as [|k ks IHk]; intros [|i]; cbn; try reflexivity; f_equal; [|apply IHk].
  now rewrite IH.
Qed.

Lemma upd_at_ext a f g n m : get_at a n = Some m -> f m = g m -> upd_at a f n = upd_at a g n.
Proof.
  revert n. induction a as [|i a IH]; intros n H E; cbn in *; [congruence|].
  destruct n as [q ats t ks|s]; cbn in *; [|reflexivity]. f_equal.
  revert i H. induction ks as [|k ks IHk]; intros [|i] H; cbn in *; try reflexivity; f_equal; auto.
  now rewrite (IH (fst k) H E).
Qed.

Lemma upd_at_id a f n m : get_at a n = Some m -> f m = m -> upd_at a f n = n.
Proof.
  revert n. induction a as [|i a IH]; intros n H E; cbn in *; [congruence|].
  destruct n as [q ats t ks|s]; cbn in *; [|reflexivity]. f_equal.
  revert i H. induction ks as [|k ks IHk]; intros [|i] H; cbn in *; try reflexivity; try discriminate; f_equal; auto.
  rewrite (IH (fst k) H E). now destruct k.
Qed.

Lemma upd_upd_same a f g n : upd_at a f (upd_at a g n) = upd_at a (fun m => f (g m)) n.
Proof.
  revert n. induction a as [|i a IH]; intros n; cbn; [reflexivity|].
  destruct n as [q ats t ks|s]; cbn; [|reflexivity]. f_equal.
  revert i. induction ks as [|k ks IHk]; intros [|i]; cbn; try reflexivity; f_equal; auto.
  now rewrite IH.
Qed.

(** ** Attribute lemmas *)
Lemma attr_get_set q v l q' : attr_get q' (attr_set q v l) = if qeqb q' q then Some v else attr_get q' l.
Proof.
  induction l as [|[p w] l IH]; cbn; [destruct (qeqb q' q); reflexivity|].
  destruct (qeqb q p) eqn:E; cbn.
  - apply qeqb_eq in E. subst p. destruct (qeqb q' q); reflexivity.
  - destruct (qeqb q' p) eqn:F; [|exact IH].
    apply qeqb_eq in F. subst q'. rewrite qeqb_sym, E. reflexivity.
Qed.

Lemma attr_set_set q v w l : attr_set q v (attr_set q w l) = attr_set q v l.
Proof.
  induction l as [|[p x] l IH]; cbn; [now rewrite qeqb_refl|].
  destruct (qeqb q p) eqn:E; cbn; rewrite E; [reflexivity|now rewrite IH].
Qed.

Lemma attr_del_set_new q v l : attr_get q l = None -> attr_del q (attr_set q v l) = l.
Proof.
  induction l as [|[p x] l IH]; cbn; intros H; [now rewrite qeqb_refl|].
  destruct (qeqb q p) eqn:E; [discriminate|]. cbn. rewrite E. now rewrite IH.
Qed.

Lemma attr_set_new q v l : attr_get q l = None -> attr_set q v l = l ++ [(q, v)].
Proof.
  induction l as [|[p x] l IH]; cbn; intros H; [reflexivity|].
  destruct (qeqb q p) eqn:E; [discriminate|]. now rewrite IH.
Qed.
