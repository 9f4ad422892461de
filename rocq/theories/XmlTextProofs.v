(** Reading back what was written: lemmas for Props_XmlText.v. *)
From Coq Require Import String List Arith NArith Bool Lia.
From Verif Require Import PyStr XmlTree Fields XPathEval XmlText.
Import ListNotations.

Section RawInd.
  Variable Q : raw -> Prop.
  Hypothesis HE : forall nm ats txt kids, Forall (fun k => Q (fst k)) kids -> Q (RElem nm ats txt kids).
  Hypothesis HC : forall s, Q (RComment s).
  Fixpoint raw_ind' (r : raw) : Q r :=
    match r with
    | RElem nm ats txt kids =>
      HE nm ats txt kids
        ((fix go (l : list (raw * option str)) : Forall (fun k => Q (fst k)) l :=
            match l with
            | [] => Forall_nil _
            | k :: l' => @Forall_cons _ (fun k => Q (fst k)) k l' (match k as k0 return Q (fst k0) with (n0, t0) => raw_ind' n0 end) (go l')
            end) kids)
    | RComment s => HC s
    end.
End RawInd.

(** ** what can be written *)
Definition name_ok (s : str) : bool := match s with [] => false | _ => forallb name_sym s end.
Definition ovalid (t : option str) : bool := match t with Some s => xml_valid s | None => true end.
(** no "--" inside and no "-" at the end *)
Fixpoint comment_ok (s : str) : bool :=
  match s with
  | [] => true
  | c :: r => xml_char c && negb (N.eqb c 13) && negb (N.eqb c 45 && match r with [] => true | d :: _ => N.eqb d 45 end) && comment_ok r
  end.
Fixpoint raw_ok (r : raw) : bool :=
  match r with
  | RComment s => comment_ok s
  | RElem nm ats txt kids => name_ok nm && forallb (fun a => name_ok (fst a) && xml_valid (snd a)) ats && ovalid txt && forallb (fun k => raw_ok (fst k) && ovalid (snd k)) kids
  end.
Definition drop (t : option str) : option str := match t with Some [] => None | _ => t end.
Fixpoint rnorm (r : raw) : raw :=
  match r with
  | RComment s => r
  | RElem nm ats txt kids => RElem nm ats (drop txt) (map (fun k => (rnorm (fst k), drop (snd k))) kids)
  end.

(** ** characters *)
Lemma text_char_cases c : (c = 38%N \/ c = 60%N \/ c = 62%N \/ c = 13%N) \/ text_char c = [c] /\ c <> 38%N /\ c <> 60%N /\ c <> 62%N /\ c <> 13%N.
Proof.
  unfold text_char. destruct (N.eqb_spec c 38); [auto|]. destruct (N.eqb_spec c 60); [auto|]. destruct (N.eqb_spec c 62); [auto|]. destruct (N.eqb_spec c 13); [auto 6|]. auto 8.
Qed.
Lemma decode_ref att nm x rest : ref_char nm = Some x -> forallb (fun c => negb (N.eqb c 59)) nm = true ->
  decode att None (38%N :: nm ++ 59%N :: rest) = option_map (cons x) (decode att None rest).
Proof.
  intros Hx Hn. change (decode att None (38%N :: nm ++ 59%N :: rest)) with (decode att (Some []) (nm ++ 59%N :: rest)).
  assert (G : forall a b, forallb (fun c => negb (N.eqb c 59)) b = true -> decode att (Some a) (b ++ 59%N :: rest) = match ref_char (rev a ++ b) with Some x => option_map (cons x) (decode att None rest) | None => None end).
  { intros a b. revert a. induction b as [|c b IH]; intros a Hb; cbn [app decode].
    - rewrite N.eqb_refl. now rewrite app_nil_r.
    - cbn in Hb. apply andb_prop in Hb as [Hc Hb]. apply negb_true_iff in Hc. rewrite Hc, (IH _ Hb). cbn [rev]. now rewrite <- app_assoc. }
  etransitivity; [exact (G [] nm Hn)|]. cbn [rev app]. now rewrite Hx.
Qed.
Lemma decode_text_char c rest : xml_char c = true -> decode false None (text_char c ++ rest) = option_map (cons c) (decode false None rest).
Proof.
  intros Hc. destruct (text_char_cases c) as [[-> |[-> |[-> | ->]]]|(-> & H1 & H2 & H3 & H4)].
  - exact (decode_ref false (u "amp") 38%N rest eq_refl eq_refl).
  - exact (decode_ref false (u "lt") 60%N rest eq_refl eq_refl).
  - exact (decode_ref false (u "gt") 62%N rest eq_refl eq_refl).
  - exact (decode_ref false (u "#13") 13%N rest eq_refl eq_refl).
  - cbn [app decode]. destruct (N.eqb_spec c 38); [contradiction|]. destruct (N.eqb_spec c 60); [contradiction|]. now rewrite Hc.
Qed.
Lemma decode_attr_char c rest : xml_char c = true -> decode true None (attr_char c ++ rest) = option_map (cons c) (decode true None rest).
Proof.
  intros Hc. unfold attr_char. destruct (N.eqb_spec c 34) as [->|A1]; [exact (decode_ref true (u "quot") 34%N rest eq_refl eq_refl)|].
  destruct (N.eqb_spec c 10) as [->|A2]; [exact (decode_ref true (u "#10") 10%N rest eq_refl eq_refl)|].
  destruct (N.eqb_spec c 9) as [->|A3]; [exact (decode_ref true (u "#9") 9%N rest eq_refl eq_refl)|].
  destruct (text_char_cases c) as [[-> |[-> |[-> | ->]]]|(-> & H1 & H2 & H3 & H4)].
  - exact (decode_ref true (u "amp") 38%N rest eq_refl eq_refl).
  - exact (decode_ref true (u "lt") 60%N rest eq_refl eq_refl).
  - exact (decode_ref true (u "gt") 62%N rest eq_refl eq_refl).
  - exact (decode_ref true (u "#13") 13%N rest eq_refl eq_refl).
  - cbn [app decode]. destruct (N.eqb_spec c 38); [contradiction|]. destruct (N.eqb_spec c 60); [contradiction|]. rewrite Hc. cbn [negb orb andb]. unfold is_xws.
    destruct (N.eqb_spec c 32) as [->|A4]; [reflexivity|]. destruct (N.eqb_spec c 9); [contradiction|]. destruct (N.eqb_spec c 13); [contradiction|]. destruct (N.eqb_spec c 10); [contradiction|]. reflexivity.
Qed.
Lemma decode_text s : xml_valid s = true -> decode false None (flat_map text_char s) = Some s.
Proof. induction s as [|c s IH]; intros H; [reflexivity|]. cbn in H. apply andb_prop in H as [Hc H]. cbn [flat_map]. rewrite (decode_text_char _ _ Hc), (IH H). reflexivity. Qed.
Lemma decode_attr s : xml_valid s = true -> decode true None (flat_map attr_char s) = Some s.
Proof. induction s as [|c s IH]; intros H; [reflexivity|]. cbn in H. apply andb_prop in H as [Hc H]. cbn [flat_map]. rewrite (decode_attr_char _ _ Hc), (IH H). reflexivity. Qed.
Lemma forallb_flat {A B} (f : B -> bool) (g : A -> list B) l : (forall x, In x l -> forallb f (g x) = true) -> forallb f (flat_map g l) = true.
Proof. induction l as [|x l IH]; intros H; [reflexivity|]. cbn. rewrite forallb_app, (H x (or_introl eq_refl)), IH; [reflexivity|]. intros; apply H; now right. Qed.
Lemma text_no_lt s : forallb (fun c => negb (N.eqb c 60)) (flat_map text_char s) = true.
Proof.
  apply forallb_flat. intros c _. destruct (text_char_cases c) as [[-> |[-> |[-> | ->]]]|(-> & H1 & H2 & H3 & H4)]; try reflexivity. cbn. destruct (N.eqb_spec c 60); [contradiction|reflexivity].
Qed.
Lemma attr_no_quote s : forallb (fun c => negb (N.eqb c 34)) (flat_map attr_char s) = true.
Proof.
  apply forallb_flat. intros c _. unfold attr_char. destruct (N.eqb_spec c 34) as [->|A]; [reflexivity|]. destruct (N.eqb c 10); [reflexivity|]. destruct (N.eqb c 9); [reflexivity|].
  destruct (text_char_cases c) as [[-> |[-> |[-> | ->]]]|(-> & _)]; try reflexivity. cbn. destruct (N.eqb_spec c 34); [contradiction|reflexivity].
Qed.

(** ** pieces *)
Lemma span_next f a c r : forallb f a = true -> f c = false -> span f (a ++ c :: r) = (a, c :: r).
Proof. intros Ha Hc. induction a as [|x a IH]; cbn; [now rewrite Hc|]. cbn in Ha. apply andb_prop in Ha as [Hx Ha]. now rewrite Hx, (IH Ha). Qed.
Lemma p_text_ok s rest : xml_valid s = true -> p_text (flat_map text_char s ++ 60%N :: rest) = Some (s, 60%N :: rest).
Proof. intros H. unfold p_text. rewrite (span_next _ _ _ _ (text_no_lt s)) by reflexivity. now rewrite (decode_text _ H). Qed.
Lemma p_otext t rest : ovalid t = true -> exists s, p_text (otext t ++ 60%N :: rest) = Some (s, 60%N :: rest) /\ opt_text s = drop t.
Proof.
  intros H. destruct t as [s|]; cbn in *; [exists s; split; [now apply p_text_ok|now destruct s]|]. exists []. split; [|reflexivity]. exact (p_text_ok [] rest eq_refl).
Qed.
Lemma eat_ok p s : eat p (p ++ s) = Some s.
Proof. unfold eat. rewrite firstn_app, Nat.sub_diag, firstn_all, app_nil_r, str_eqb_refl, skipn_app, skipn_all, Nat.sub_diag. reflexivity. Qed.
Lemma name_sym_spec c : name_sym c = true -> is_xws c = false /\ xml_char c = true /\ c <> 33%N /\ c <> 47%N /\ c <> 61%N /\ c <> 62%N /\ c <> 13%N /\ c <> 34%N /\ c <> 60%N.
Proof.
  unfold name_sym. intros H. apply andb_prop in H as [H1 H2]. apply andb_prop in H1 as [H0 H1]. apply negb_true_iff in H1. apply negb_true_iff in H2. cbn in H2. rewrite !orb_false_iff in H2.
  destruct H2 as (A & B & C & D & E & F & G & H & I & _). rewrite N.eqb_neq in *. split; [assumption|]. split; [assumption|]. repeat split; try assumption. intros ->. discriminate.
Qed.
Lemma skip_name s r : name_ok s = true -> skip_ws (s ++ r) = s ++ r.
Proof. destruct s as [|c s]; [discriminate|]. intros H. unfold name_ok in H. cbn [forallb] in H. apply andb_prop in H as [H _]. apply name_sym_spec in H as (H & _). cbn. now rewrite H. Qed.
Lemma name_forall s : name_ok s = true -> forallb name_sym s = true. Proof. now destruct s. Qed.
Lemma p_atts_ok ats c rest : (c = 47%N \/ c = 62%N) -> forallb (fun a => name_ok (fst a) && xml_valid (snd a)) ats = true -> forall fuel, length ats < fuel -> 
  p_atts fuel (flat_map print_att ats ++ c :: rest) = Some (ats, c :: rest).
Proof.
  intros Hc. induction ats as [|[nm v] ats IH]; intros H fuel Hf; (destruct fuel as [|g]; [cbn in Hf; lia|]).
  - cbn [flat_map app p_atts]. assert (E : skip_ws (c :: rest) = c :: rest) by (destruct Hc as [-> | ->]; reflexivity). rewrite E. now destruct Hc as [-> | ->].
  - cbn in H. apply andb_prop in H as [H0 H]. apply andb_prop in H0 as [Hn Hv]. cbn [flat_map]. unfold print_att at 1. cbn [fst snd]. cbn [app]. rewrite <- !app_assoc. cbn [app]. cbn [p_atts].
    match goal with |- context [skip_ws (32%N :: ?x)] => change (skip_ws (32%N :: x)) with (skip_ws x) end. rewrite (skip_name nm _ Hn).
    destruct nm as [|c0 nm0]; [discriminate|]. cbn [app]. assert (Hc0 : name_sym c0 = true) by (apply name_forall in Hn; cbn in Hn; now apply andb_prop in Hn as [Hn _]).
    apply name_sym_spec in Hc0 as (_ & _ & _ & H47 & _ & H62 & _). destruct (N.eqb_spec c0 47); [contradiction|]. destruct (N.eqb_spec c0 62); [contradiction|]. cbn [orb].
    match goal with |- context [span name_sym (c0 :: nm0 ++ 61%N :: ?x)] => pose proof (span_next name_sym (c0 :: nm0) 61%N x (name_forall _ Hn) eq_refl) as Sp; cbn [app] in Sp; rewrite Sp; clear Sp end.
    match goal with |- context [skip_ws (61%N :: ?x)] => change (skip_ws (61%N :: x)) with (61%N :: x) end.
    rewrite <- app_assoc. cbv beta iota. change (skip_ws (34%N :: flat_map attr_char v ++ [34%N] ++ flat_map print_att ats ++ c :: rest)) with (34%N :: flat_map attr_char v ++ [34%N] ++ flat_map print_att ats ++ c :: rest). cbn [app]. cbv beta iota. change (N.eqb 34 34 || N.eqb 34 39) with true. cbv iota.
    rewrite (span_next (fun c => negb (N.eqb c 34)) (flat_map attr_char v) 34%N _ (attr_no_quote v)) by reflexivity. rewrite (decode_attr _ Hv). rewrite (IH H g) by (cbn in Hf; lia). reflexivity.
Qed.
Lemma p_comment_ok s rest : comment_ok s = true -> p_comment (s ++ [45; 45; 62]%N ++ rest) = Some (s, rest).
Proof.
  induction s as [|c s IH]; intros H; [reflexivity|]. cbn in H. apply andb_prop in H as [H Hr]. apply andb_prop in H as [H Hd]. apply andb_prop in H as [Hx _]. cbn [app p_comment]. rewrite negb_true_iff in Hd.
  cbn [app] in IH.
  assert (Q : N.eqb c 45 && match s ++ 45%N :: 45%N :: 62%N :: rest with d :: _ => N.eqb d 45 | [] => false end = false) by (destruct s as [|d s]; cbn in *; exact Hd).
  rewrite Q, Hx. now rewrite (IH Hr).
Qed.

(** ** elements *)
Lemma print_elem nm ats txt kids : (txt = None /\ kids = [] /\ print (RElem nm ats txt kids) = 60%N :: nm ++ flat_map print_att ats ++ [47; 62]%N) \/
  ((txt <> None \/ kids <> []) /\ print (RElem nm ats txt kids) = 60%N :: nm ++ flat_map print_att ats ++ 62%N :: otext txt ++ flat_map (fun k => print (fst k) ++ otext (snd k)) kids ++ [60; 47]%N ++ nm ++ [62%N]).
Proof. destruct txt as [t|]; [right; split; [left; discriminate|reflexivity]|]. destruct kids as [|k kids]; [left; auto|]. right. split; [right; discriminate|reflexivity]. Qed.
Lemma attrs_length ats : length ats <= length (flat_map print_att ats).
Proof. induction ats as [|a l IH]; [auto|]. cbn. rewrite !app_length. cbn. lia. Qed.
Lemma name_stop s r : name_sym s = false -> True -> forall nm, forallb name_sym nm = true -> span name_sym (nm ++ s :: r) = (nm, s :: r).
Proof. intros. now apply span_next. Qed.
Lemma span_elem nm ats c rest : name_ok nm = true -> (c = 47%N \/ c = 62%N) -> span name_sym (nm ++ flat_map print_att ats ++ c :: rest) = (nm, flat_map print_att ats ++ c :: rest).
Proof.
  intros Hn Hc. destruct ats as [|a l]; cbn [flat_map app].
  - apply span_next; [now apply name_forall|]. now destruct Hc as [-> | ->].
  - unfold print_att at 1. cbn [app]. apply span_next; [now apply name_forall|reflexivity].
Qed.
Definition good (r : raw) : Prop := raw_ok r = true -> (exists nm ats txt kids, r = RElem nm ats txt kids) -> forall rest fuel, length (print r) <= fuel -> p_elem fuel (print r ++ rest) = Some (rnorm r, rest).
Lemma p_kids_ok kids : Forall (fun k => good (fst k)) kids -> forallb (fun k => raw_ok (fst k) && ovalid (snd k)) kids = true -> forall rest fuel,
  length (flat_map (fun k => print (fst k) ++ otext (snd k)) kids) < fuel ->
  p_kids fuel (flat_map (fun k => print (fst k) ++ otext (snd k)) kids ++ 60%N :: 47%N :: rest) = Some (map (fun k => (rnorm (fst k), drop (snd k))) kids, 60%N :: 47%N :: rest).
Proof.
  induction 1 as [|[k t] kids Hk Hkids IH]; intros Hok rest fuel Hf; (destruct fuel as [|g]; [cbn in Hf; lia|]).
  - cbn [flat_map app p_kids]. change (60%N :: 47%N :: rest) with ([60; 47]%N ++ rest). rewrite eat_ok. reflexivity.
  - cbn [flat_map fst snd] in *. cbn [forallb fst snd] in Hok. apply andb_prop in Hok as [H0 Hok]. apply andb_prop in H0 as [Hr Ht]. rewrite <- !app_assoc. cbn [p_kids]. rewrite !app_length in Hf.
    set (after := flat_map (fun k0 => print (fst k0) ++ otext (snd k0)) kids ++ 60%N :: 47%N :: rest).
    assert (Haft : exists a, after = 60%N :: a).
    { unfold after. destruct kids as [|[[nm ats tx ks|s] t2] kids2]; cbn [flat_map app fst]; [eauto| |cbn [print app]; eauto]. destruct (print_elem nm ats tx ks) as [(_ & _ & ->)|(_ & ->)]; cbn [app]; eauto. }
    destruct Haft as [a Ea]. destruct (p_otext t a Ht) as (s & Hs & Hd). rewrite <- Ea in Hs.
    assert (Rec : p_kids g after = Some (map (fun k0 => (rnorm (fst k0), drop (snd k0))) kids, 60%N :: 47%N :: rest)).
    { apply IH; [assumption|]. assert (1 <= length (print k)); [|lia]. destruct k as [nm ats tx ks|s0]; [|cbn; lia]. destruct (print_elem nm ats tx ks) as [(_ & _ & ->)|(_ & ->)]; cbn; lia. }
    destruct k as [nm ats tx ks|s0].
    + assert (Hh : exists c b, name_sym c = true /\ print (RElem nm ats tx ks) ++ otext t ++ after = 60%N :: c :: b).
      { cbn [raw_ok] in Hr. apply andb_prop in Hr as [Hr _]. apply andb_prop in Hr as [Hr _]. apply andb_prop in Hr as [Hr _]. destruct nm as [|c nm]; [discriminate|]. cbn [name_ok forallb] in Hr. apply andb_prop in Hr as [Hc _].
        destruct (print_elem (c :: nm) ats tx ks) as [(_ & _ & ->)|(_ & ->)]; cbn [app]; exists c; eauto. }
      destruct Hh as (c & b & Hc & Eh). apply name_sym_spec in Hc as (_ & _ & H33 & H47 & _).
      assert (E1 : eat [60; 47]%N (print (RElem nm ats tx ks) ++ otext t ++ after) = None). { rewrite Eh. unfold eat. cbn [length firstn str_eqb]. rewrite N.eqb_refl. cbn. destruct (N.eqb_spec c 47); [contradiction|reflexivity]. }
      assert (E2 : eat [60; 33; 45; 45]%N (print (RElem nm ats tx ks) ++ otext t ++ after) = None). { rewrite Eh. unfold eat. cbn [length firstn str_eqb]. rewrite N.eqb_refl. cbn. destruct (N.eqb_spec c 33); [contradiction|reflexivity]. }
      rewrite E1, E2. unfold good in Hk. rewrite (Hk Hr); [|eauto|lia]. rewrite Hs, Rec, Hd. reflexivity.
    + cbn [print]. rewrite <- !app_assoc. assert (E1 : forall x, eat [60; 47]%N ([60; 33; 45; 45]%N ++ x) = None) by reflexivity. rewrite E1, eat_ok. rewrite (p_comment_ok _ _ Hr). rewrite Hs, Rec, Hd. reflexivity.
Qed.
Lemma p_elem_ok r : good r.
Proof.
  induction r as [nm ats txt kids IH|s] using raw_ind'; intros Hok Hel rest fuel Hf; [|destruct Hel as (? & ? & ? & ? & ?); discriminate]. clear Hel.
  cbn [raw_ok] in Hok. apply andb_prop in Hok as [Hok Hkids]. apply andb_prop in Hok as [Hok Htxt]. apply andb_prop in Hok as [Hn Hats].
  destruct (print_elem nm ats txt kids) as [(-> & -> & E)|(Hne & E)]; rewrite E in *; clear E.
  - destruct fuel as [|g]; [cbn in Hf; lia|]. cbn [app p_elem]. rewrite <- !app_assoc. cbn [app]. rewrite (span_elem nm ats 47%N (62%N :: rest) Hn (or_introl eq_refl)).
    destruct nm as [|c nm]; [discriminate|]. rewrite (p_atts_ok ats 47%N (62%N :: rest) (or_introl eq_refl) Hats); [reflexivity|]. rewrite app_length. pose proof (attrs_length ats). lia.
  - destruct fuel as [|g]; [cbn in Hf; lia|]. cbn [app p_elem]. rewrite <- !app_assoc. cbn [app].
    set (tl2 := flat_map (fun k => print (fst k) ++ otext (snd k)) kids ++ 60%N :: 47%N :: nm ++ 62%N :: rest).
    match goal with |- context [flat_map print_att ats ++ 62%N :: ?x] => replace x with (otext txt ++ tl2) by (unfold tl2; cbn [app]; rewrite <- !app_assoc; cbn [app]; rewrite <- ?app_assoc; reflexivity) end.
    rewrite (span_elem nm ats 62%N _ Hn (or_intror eq_refl)). assert (Hm : forall (A : Type) (x y : A), match nm with [] => x | _ :: _ => y end = y) by (destruct nm; [discriminate|reflexivity]). rewrite Hm.
    rewrite (p_atts_ok ats 62%N _ (or_intror eq_refl) Hats); [|rewrite app_length; pose proof (attrs_length ats); lia].
    assert (Haft : exists a, tl2 = 60%N :: a).
    { unfold tl2. destruct kids as [|[[nm1 ats1 tx1 ks1|s1] t2] kids2]; cbn [flat_map app fst]; [eauto| |cbn [print app]; eauto]. destruct (print_elem nm1 ats1 tx1 ks1) as [(_ & _ & ->)|(_ & ->)]; cbn [app]; eauto. }
    destruct Haft as [a Ea]. rewrite Ea. destruct (p_otext txt a Htxt) as (s & Hs & Hd). rewrite Hs. rewrite <- Ea. unfold tl2.
    rewrite (p_kids_ok kids IH Hkids (nm ++ 62%N :: rest) g); [|cbn in Hf; rewrite !app_length in Hf; cbn in Hf; rewrite !app_length in Hf; cbn in Hf; lia].
    replace (60%N :: 47%N :: nm ++ 62%N :: rest) with (([60; 47]%N ++ nm) ++ 62%N :: rest) by now rewrite <- app_assoc. rewrite eat_ok. rewrite Hd. reflexivity.
Qed.

(** ** line ends *)
Definition no_cr (s : str) : bool := forallb (fun c => negb (N.eqb c 13)) s.
Lemma line_ends_id s : no_cr s = true -> line_ends s = s.
Proof.
  induction s as [|c s IH]; intros H; [reflexivity|]. cbn in H. apply andb_prop in H as [Hc H]. apply negb_true_iff, N.eqb_neq in Hc. specialize (IH H).
  destruct c as [|p]; [cbn; now rewrite IH|]. do 4 (destruct p as [p|p|]; try (cbn [line_ends]; rewrite IH; reflexivity)). now elim Hc.
Qed.
Lemma no_cr_app a b : no_cr (a ++ b) = no_cr a && no_cr b. Proof. apply forallb_app. Qed.
Lemma no_cr_cons c s : no_cr (c :: s) = negb (N.eqb c 13) && no_cr s. Proof. reflexivity. Qed.
Lemma no_cr_nil : no_cr [] = true. Proof. reflexivity. Qed.
Ltac nocr := repeat (rewrite ?no_cr_app, ?no_cr_cons, ?no_cr_nil).
Lemma name_no_cr s : forallb name_sym s = true -> no_cr s = true.
Proof.
  intros H. unfold no_cr. rewrite forallb_forall in *. intros c Hc. apply negb_true_iff, N.eqb_neq. apply H, name_sym_spec in Hc. tauto.
Qed.
Lemma text_no_cr s : no_cr (flat_map text_char s) = true.
Proof.
  apply forallb_flat. intros c _. destruct (text_char_cases c) as [[-> |[-> |[-> | ->]]]|(-> & H1 & H2 & H3 & H4)]; try reflexivity. cbn. destruct (N.eqb_spec c 13); [contradiction|reflexivity].
Qed.
Lemma otext_no_cr t : no_cr (otext t) = true. Proof. destruct t; [apply text_no_cr|reflexivity]. Qed.
Lemma attr_no_cr s : no_cr (flat_map attr_char s) = true.
Proof.
  apply forallb_flat. intros c _. unfold attr_char. destruct (N.eqb c 34); [reflexivity|]. destruct (N.eqb c 10); [reflexivity|]. destruct (N.eqb c 9); [reflexivity|].
  destruct (text_char_cases c) as [[-> |[-> |[-> | ->]]]|(-> & H1 & H2 & H3 & H4)]; try reflexivity. cbn. destruct (N.eqb_spec c 13); [contradiction|reflexivity].
Qed.
Lemma comment_no_cr s : comment_ok s = true -> no_cr s = true.
Proof. induction s as [|c s IH]; intros H; [reflexivity|]. cbn in H. apply andb_prop in H as [H Hr]. apply andb_prop in H as [H _]. apply andb_prop in H as [_ H]. nocr. now rewrite H, (IH Hr). Qed.
Lemma print_no_cr r : raw_ok r = true -> no_cr (print r) = true.
Proof.
  induction r as [nm ats txt kids IH|s] using raw_ind'; intros H; cbn [raw_ok] in H.
  - apply andb_prop in H as [H Hk]. apply andb_prop in H as [H _]. apply andb_prop in H as [Hn Ha]. apply name_forall, name_no_cr in Hn.
    assert (A : no_cr (flat_map print_att ats) = true).
    { apply forallb_flat. intros [n v] Hi. rewrite forallb_forall in Ha. specialize (Ha _ Hi). cbn in Ha. apply andb_prop in Ha as [Ha _]. apply name_forall, name_no_cr in Ha. change (no_cr (32%N :: n ++ [61; 34]%N ++ flat_map attr_char v ++ [34%N]) = true). nocr. now rewrite Ha, attr_no_cr. }
    assert (K : no_cr (flat_map (fun k => print (fst k) ++ otext (snd k)) kids) = true).
    { apply forallb_flat. intros [k t] Hi. rewrite Forall_forall in IH. rewrite forallb_forall in Hk. specialize (Hk _ Hi). specialize (IH _ Hi). cbn [fst snd] in *. apply andb_prop in Hk as [Hk _]. change (no_cr (print k ++ otext t) = true). now rewrite no_cr_app, (IH Hk), otext_no_cr. }
    destruct (print_elem nm ats txt kids) as [(_ & _ & ->)|(_ & ->)]; nocr; rewrite Hn, A; [reflexivity|]. now rewrite otext_no_cr, K.
  - cbn [print]. nocr. now rewrite (comment_no_cr _ H).
Qed.
