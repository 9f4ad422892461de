(** Proofs for C84: operations of a field that forks off keep another field settled. *)
From Coq Require Import String Arith ZArith Lia.
From Verif Require Export FieldSingle Props_Construct.
From Verif Require Import XPathEval FieldSpec DocSpec IndepSpec.

Opaque u.

Lemma cores_len E e d : length (cores E e d) = length (selects E e d).
Proof. unfold cores, selects. apply map_length. Qed.
Lemma cores_kids E e d b n : In (IElem b n) (selects E e d) -> In (IElem [] n) (cores E e d).
Proof. intros H. unfold cores. apply in_map_iff. exists (IElem b n). split; [reflexivity|exact H]. Qed.
Lemma kids_cores E e d n : In (IElem [] n) (cores E e d) -> exists b, In (IElem b n) (selects E e d).
Proof. unfold cores. intros H. apply in_map_iff in H as ([b m| |] & Hc & Hi); cbn in Hc; try discriminate. injection Hc as <-. exists b. exact Hi. Qed.

Lemma app_cases {A} (Q : list A) : forall P s R s1 r1, Q ++ s :: R = P ++ s1 :: r1 -> (exists P2, P = Q ++ P2) \/ exists r', Q = P ++ s1 :: r'.
Proof.
  induction Q as [|x Q IH]; intros P s R s1 r1 H; [left; exists P; reflexivity|]. destruct P as [|y P].
  - right. injection H as <- _. exists Q. reflexivity.
  - injection H as <- H. destruct (IH _ _ _ _ _ H) as [[P2 ->]|[r' ->]]; [left; exists P2; reflexivity|right; exists r'; reflexivity].
Qed.

Lemma settled_other E e o d : supported_path E e = true -> supported_path E (fop_path o) = true -> fork E e (fop_path o) -> tag_of d <> None ->
  settled E e d -> settled E (fop_path o) (run_fop E o d) -> settled E e (run_fop E o d).
Proof.
  intros H1 H2 Hf Hd Hse Hse'. destruct (fork_one E e o d H1 H2 Hf Hd) as [_ Hc]. set (d' := run_fop E o d) in *.
  destruct (sup_parts3 _ _ H1) as (B1 & B2 & B3), (sup_parts3 _ _ H2) as (C1 & C2 & C3).
  destruct Hse as [Hs1 Hs2]. split.
  - intros l [<-|Hl].
    + rewrite <- cores_len, <- Hc, cores_len. apply Hs1. now left.
    + destruct (lefts_parts _ _ _ B1 B2 B3 l Hl) as (A & B & C & D & s & R & F). destruct Hf as (P & s1 & r1 & s2 & r2 & k1 & k2 & Hp1 & Hp2 & Hk). rewrite spine_steps in Hp1, Hp2.
      rewrite F in Hp1. destruct (app_cases _ _ _ _ _ _ Hp1) as [[P2 ->]|[r' Hr]].
      * rewrite (selects_len _ _ _ _ A B D). rewrite <- app_assoc in Hp2.
        assert (Hx : exists x R', spine (fop_path o) = spine l ++ x :: R') by (destruct P2 as [|x P2]; [exists s2, r2|exists x, (P2 ++ s2 :: r2)]; exact Hp2).
        destruct Hx as (x & R' & Hx). destruct (lefts_all _ _ _ C1 C2 _ _ _ Hx) as [->|(l' & Hl' & Hs')]; [cbn; lia|].
        destruct (lefts_parts _ _ _ C1 C2 C3 l' Hl') as (A' & B' & _ & D' & _). rewrite <- Hs', <- (selects_len _ _ _ _ A' B' D'). apply (proj1 Hse'). now right.
      * assert (Hsl : supported_path E l = true) by (unfold supported_path; now rewrite A, B, C).
        assert (Hfl : fork E l (fop_path o)) by (exists P, s1, r', s2, r2, k1, k2; rewrite !spine_steps; auto).
        destruct (fork_one E l o d Hsl H2 Hfl Hd) as [_ Hcl]. fold d' in Hcl. rewrite <- cores_len, <- Hcl, cores_len. apply Hs1. now right.
  - intros b n Hb. apply cores_kids in Hb. rewrite <- Hc in Hb. apply kids_cores in Hb as [b' Hb]. eauto.
Qed.

Lemma not_text_no_text E e d a tl t : supported_path E e = true -> lkind E e <> Some KText -> ~ In (IText a tl t) (selects E e d).
Proof.
  intros Hs Hl Hi. destruct (sup_parts3 _ _ Hs) as (Hpa & Ho & _). destruct (lkind E e) as [[q|q|]|] eqn:Hlk; auto.
  - rewrite (selects_elems _ _ _ _ Hpa Ho) in Hi by (left; now rewrite Hlk). unfold elems_at in Hi. apply in_flat_map in Hi as (b & _ & Hi). destruct (get_at b d); [|contradiction]. destruct Hi as [|[]]; discriminate.
  - unfold selects in Hi. rewrite (ev_route _ _ _ _ _ _ Hpa Ho Hlk eq_refl) in Hi. cbn [nodes_of] in Hi. apply in_flat_map in Hi as (b & _ & Hi). destruct (get_at b d); [|contradiction].
    cbn [term_items] in Hi. unfold attr_items in Hi. apply in_flat_map in Hi as ([q' w] & _ & Hi). cbn in Hi. destruct (qeqb q' q); [|contradiction]. destruct Hi as [|[]]; discriminate.
  - rewrite (selects_elems _ _ _ _ Hpa Ho) in Hi by (right; exact Hlk). unfold elems_at in Hi. apply in_flat_map in Hi as (b & _ & Hi). destruct (get_at b d); [|contradiction]. destruct Hi as [|[]]; discriminate.
Qed.
Lemma settled_set_total E e v d : sound_path E e -> tag_of d <> None -> settled E e d -> xml_valid v = true -> exists d', mgr_set E e (Some v) d = (d', Ret tt).
Proof.
  intros (Hs & Ht & Hn & Hta & Hb & Hw) Hd Hse Hv. destruct (selects E e d) as [|i rest] eqn:Es.
  - apply set_total_missing; auto.
  - eapply set_total_existing; [exact Hs|exact Es|exact Hv| |].
    + intros b n ->. apply (proj2 Hse b n). rewrite Es. now left.
    + intros b tl s ->. apply (not_text_no_text E e d b tl s Hs Ht). rewrite Es. now left.
Qed.

Lemma lkind_enters E e : supported_path E e = true -> lkind E e <> Some KText -> lkind E e <> None -> exists q, enters E e q.
Proof.
  intros Hs Ht Hn. destruct (sup_parts3 _ _ Hs) as (B1 & B2 & _). destruct (lkind E e) as [k|] eqn:Hk; [|contradiction]. destruct (lkind_last _ _ _ Hk) as (s & Hls & Hks).
  pose proof (route_spine _ _ B1 Hls) as Hsp. unfold enters, first_kind. rewrite spine_steps, Hsp. destruct (route e) as [|p P] eqn:Er; cbn [app].
  - exists k. split; [exact Hs|]. split; [exact Hks|]. intros ->. contradiction.
  - cbn [app] in Hsp. destruct (spine_mid _ _ _ B1 B2 [] p (P ++ [s]) Hsp) as (_ & _ & _ & _ & Hq & _). destruct Hq as [q Hq]; [destruct P; discriminate|]. exists (KChild q). split; [exact Hs|]. split; [exact Hq|discriminate].
Qed.

(** ** one step of the simulation *)
Lemma typed_put E e m v d : sound_path E e -> tag_of d <> None -> settled E e d -> (to_xml m v = Ret None \/ exists s, to_xml m v = Ret (Some s) /\ xml_valid s = true) ->
  exists d', typed_set E e m v d = (d', Ret tt) /\ settled E e d' /\ tag_of d' <> None /\ (to_xml m v = Ret None -> selects E e d' = []).
Proof.
  intros Hp Hd Hse Hx. pose proof Hp as (Hs & Ht & Hn & _ & _ & Hw). destruct (lkind_enters E e Hs Ht Hn) as [q He].
  assert (G : exists d', typed_set E e m v d = (d', Ret tt) /\ settled E e d' /\ (to_xml m v = Ret None -> selects E e d' = [])).
  { unfold typed_set. destruct Hx as [Hx|(s & Hx & Hv)]; rewrite Hx.
    - destruct (settled_delete_total E e d Hs Ht Hn Hw Hse) as [d' Hm]. exists d'. rewrite none_is_delete. split; [exact Hm|].
      destruct (settled_delete E e d d' (Ret tt) Hs Ht Hn Hd Hse Hm) as [A B]. auto.
    - destruct (settled_set_total E e s d Hp Hd Hse Hv) as [d' Hm]. exists d'. split; [exact Hm|]. split; [|discriminate]. eapply settled_set; eauto. }
  destruct G as (d' & A & B & C). exists d'. split; [exact A|]. split; [exact B|]. split; [|exact C]. rewrite <- (typed_tag _ _ _ _ _ _ _ _ He Hd A). exact Hd.
Qed.
Lemma delete_put E e d : sound_path E e -> tag_of d <> None -> settled E e d ->
  exists d', mgr_delete E e d = (d', Ret tt) /\ settled E e d' /\ tag_of d' <> None /\ selects E e d' = [].
Proof.
  intros Hp Hd Hse. destruct (typed_put E e (MString false) PNone d Hp Hd Hse (or_introl eq_refl)) as (d' & A & B & C & D). exists d'. unfold typed_set in A. cbn [to_xml] in A. rewrite none_is_delete in A. auto.
Qed.
Lemma unset_read E e m d : supported_path E e = true -> selects E e d = [] -> match m with MString _ | MInt | MBool _ _ | MDateTime _ _ | MDate _ => True | _ => False end -> field_get E e m d = Ret (unset m).
Proof. intros Hs Hn Hm. unfold field_get. rewrite (eval_path _ _ _ Hs), Hn. destruct m as [| | |t [f|]| | | |]; try contradiction; reflexivity. Qed.
