(** Property theorems about class creation (C34) and SchemaField (C38). *)
From Coq Require Import String List Arith Lia NArith Bool.
From Verif Require Import PyStr Classes ClassProofs.
Import ListNotations.
Opaque u.

(** ** C34  Specification.  [_fields] of a class, and what attribute access on it (or on an instance) finds: *)
Definition fields_of (w : world) (c : nat) (n : str) : option nat :=
  match nth_error (w_classes w) c with Some k => match c_fields k with Some t => dget n t | None => None end | None => None end.
Definition attribute (w : world) (c : nat) (n : str) : option attr := lookup w c n.
Definition ancestor (w : world) (c a : nat) : Prop := match nth_error (w_classes w) c with Some k => In a (c_mro k) | None => False end.
(** what the class statement of [c] itself put under the name *)
Definition own (w : world) (c : nat) (n : str) : option attr := match nth_error (w_classes w) c with Some k => dget n (c_dict k) | None => None end.
Definition bases (w : world) (c : nat) : list nat := match nth_error (w_classes w) c with Some k => c_bases k | None => [] end.

(** neither [c] nor an ancestor uses the name for anything but a field *)
Definition only_field (w : world) (c : nat) (n : str) : Prop :=
  forall a, ancestor w c a -> match own w a n with None | Some (AField _) => True | _ => False end.
(** no class that does not define the name itself gets two different fields of that name from two bases *)
Definition no_clash (w : world) (c : nat) (n : str) : Prop :=
  forall a b1 b2 f1 f2, ancestor w c a -> own w a n = None -> In b1 (bases w a) -> In b2 (bases w a) ->
    fields_of w b1 n = Some f1 -> fields_of w b2 n = Some f2 -> f1 = f2.

Lemma fields_of_table w c k n : nth_error (w_classes w) c = Some k -> fields_of w c n = dget n (table k).
Proof. intros H. unfold fields_of, table. rewrite H. now destruct (c_fields k). Qed.

Theorem C34_fields_table_partial : forall files p c n, c < length (w_classes (run files p)) ->
  only_field (run files p) c n -> no_clash (run files p) c n ->
  attribute (run files p) c n = option_map AField (fields_of (run files p) c n).
Proof.
  intros files p c n Hc Hf Hn. set (w := run files p) in *. destruct (nth_error (w_classes w) c) as [k|] eqn:Ek; [|apply nth_error_None in Ek; lia].
  rewrite (fields_of_table w c k n Ek). unfold only_field, no_clash, ancestor in *. rewrite Ek in Hf, Hn. apply table_is_lookup; auto; [apply run_ok| |].
  - intros a ka Ha Hka. specialize (Hf a Ha). unfold own in Hf. rewrite Hka in Hf. destruct (dget n (c_dict ka)) as [[]|]; auto.
  - intros a ka b1 b2 k1 k2 f1 f2 Ha Hka Ho H1 H2 Hk1 Hk2 Hf1 Hf2. apply (Hn a b1 b2 f1 f2 Ha).
    + unfold own. now rewrite Hka.
    + unfold bases. now rewrite Hka.
    + unfold bases. now rewrite Hka.
    + now rewrite (fields_of_table w b1 k1 n Hk1).
    + now rewrite (fields_of_table w b2 k2 n Hk2).
Qed.

(** with at most one base everywhere there is nothing to clash *)
Theorem C34_single_inheritance_partial : forall files p c n, c < length (w_classes (run files p)) ->
  (forall a, ancestor (run files p) c a -> length (bases (run files p) a) <= 1) -> only_field (run files p) c n ->
  attribute (run files p) c n = option_map AField (fields_of (run files p) c n).
Proof.
  intros files p c n Hc Hs Hf. apply C34_fields_table_partial; auto. intros a b1 b2 f1 f2 Ha _ H1 H2 Hf1 Hf2. specialize (Hs a Ha).
  destruct (bases (run files p) a) as [|x [|y l]]; cbn in *; [contradiction| |lia]. destruct H1 as [<-|[]], H2 as [<-|[]]. congruence.
Qed.

(** ** self references: 'self' or the class's own name becomes the new class; nothing else changes *)
Theorem C34_self_reference : forall files w name bs attrs w' n f fo,
  define files w name bs attrs = Good w' -> In (n, AField f) attrs -> nth_error (w_fields w) f = Some fo -> f_class fo <> FcSchema ->
  match f_nclass fo with
  | NcName s => (s = u "self" \/ s = name) /\ exists fo', nth_error (w_fields w') f = Some fo' /\ f_nclass fo' = NcClass (length (w_classes w)) /\ f_xpath fo' = f_xpath fo /\ f_counter fo' = f_counter fo
  | _ => nth_error (w_fields w') f = Some fo
  end.
Proof.
  intros files w name bs attrs w' n f fo H Hin Hfo Hc. destruct (self_reference _ _ _ _ _ _ H f fo Hfo) as [G _]. specialize (G (in_map snd _ _ Hin) Hc).
  destruct (f_nclass fo); auto. destruct G as [G1 G2]. split.
  - unfold is_name in G1. apply orb_true_iff in G1 as [G1|G1]; apply str_eqb_eq in G1; auto.
  - eexists. split; [exact G2|]. cbn. auto.
Qed.
Theorem C34_other_fields_kept : forall files w name bs attrs w' f fo,
  define files w name bs attrs = Good w' -> nth_error (w_fields w) f = Some fo -> (forall n, ~ In (n, AField f) attrs) -> nth_error (w_fields w') f = Some fo.
Proof.
  intros files w name bs attrs w' f fo H Hfo Hno. apply (self_reference _ _ _ _ _ _ H f fo Hfo). intros Hi. apply in_map_iff in Hi as ([n a] & He & Hi). cbn in He. subst a. now apply (Hno n).
Qed.

Open Scope string_scope.
Definition strf (x : string) : field := mkField FcString (u x) None None None None [] NcNone 0.
Definition nodef (x c : string) : field := mkField FcNode (u x) None None None None [] (NcName (u c)) 0.
Definition nofiles : str -> option schema := fun _ => None.
Definition cl (n : string) (bs : list nat) (attrs : list (string * attr)) : stmt := SClass (u n) bs (map (fun na => (u (fst na), snd na)) attrs).
Definition xml_object : stmt := cl "XmlObject" [] [("XSD_SCHEMA", AXsd None)].

(** class A: x = f0;  class B(A): x = f1;  class C(A): pass;  class D(B, C): pass.
    D().x uses B's field, D._fields['x'] is A's. *)
Definition diamond : list stmt := [SField (strf "a"); SField (strf "b"); xml_object; cl "A" [0] [("x", AField 0)]; cl "B" [1] [("x", AField 1)]; cl "C" [1] []; cl "D" [2; 3] []].
Theorem C34_diamond_refuted : let w := run nofiles diamond in
  attribute w 4 (u "x") = Some (AField 1) /\ fields_of w 4 (u "x") = Some 0.
Proof. vm_compute. auto. Qed.
(** a field overridden by something else stays in the table *)
Theorem C34_override_refuted : let w := run nofiles [SField (strf "a"); xml_object; cl "A" [0] [("x", AField 0)]; cl "B" [1] [("x", AOther)]] in
  attribute w 2 (u "x") = Some AOther /\ fields_of w 2 (u "x") = Some 0.
Proof. vm_compute. auto. Qed.
(** fields of a mixin that is not an XmlObject are no fields *)
Theorem C34_mixin_refuted : let w := run nofiles [SField (strf "a"); xml_object; SPlain (u "Mixin") [] [(u "x", AField 0)]; cl "B" [1; 0] []] in
  attribute w 2 (u "x") = Some (ARaw 0) /\ fields_of w 2 (u "x") = None.
Proof. vm_compute. auto. Qed.
(** overriding a NodeField leaves the old create_ method in place *)
Theorem C34_stale_create_refuted : let w := run nofiles [SField (nodef "a" "self"); SField (strf "b"); xml_object; cl "A" [0] [("x", AField 0)]; cl "B" [1] [("x", AField 1)]] in
  attribute w 2 (u "x") = Some (AField 1) /\ attribute w 2 (u "create_x") = Some (ACreate 0).
Proof. vm_compute. auto. Qed.
(** one self-referential field under two names: AssertionError *)
Theorem C34_alias_refuted : define nofiles (run nofiles [SField (nodef "a" "self"); xml_object]) (u "A") [0] [(u "x", AField 0); (u "y", AField 0)] = Bad CAssert.
Proof. vm_compute. reflexivity. Qed.

(** a hierarchy of depth four with an override and two bases that both bring x, the same one *)
Definition tower : list stmt := [SField (strf "a"); SField (strf "b"); SField (nodef "c" "self"); xml_object;
  cl "A" [0] [("x", AField 0); ("y", AField 1)]; cl "B" [1] [("y", AField 2)]; cl "C" [1] []; cl "D" [2; 3] [("z", AField 1)]].
Lemma in_cases {A} (P : A -> Prop) (l : list A) : Forall P l -> forall x, In x l -> P x. Proof. intros H. now apply Forall_forall. Qed.
Example C34_case : let w := run nofiles tower in
  length (w_classes w) = 5 /\ only_field w 4 (u "x") /\ no_clash w 4 (u "x") /\ attribute w 4 (u "x") = Some (AField 0) /\
  attribute w 4 (u "z") = Some (AField 1) /\ attribute w 2 (u "create_y") = Some (ACreate 2) /\
  nth_error (w_fields w) 2 = Some (mkField FcNode (u "c") None None None None [] (NcClass 2) 2).
Proof.
  cbn zeta. split; [vm_compute; reflexivity|]. split; [|split; [|vm_compute; auto 10]].
  - assert (G : Forall (fun a => match own (run nofiles tower) a (u "x") with None | Some (AField _) => True | _ => False end) [4; 2; 3; 1; 0]) by (repeat (apply Forall_cons; [vm_compute; exact I|]); apply Forall_nil).
    intros a Ha. apply (in_cases _ _ G). vm_compute in Ha. exact Ha.
  - assert (G : Forall (fun a => own (run nofiles tower) a (u "x") = None -> Forall (fun b => forall f, fields_of (run nofiles tower) b (u "x") = Some f -> f = 0) (bases (run nofiles tower) a)) [4; 2; 3; 1; 0]).
    { repeat (apply Forall_cons; [vm_compute; intros; try discriminate; repeat (apply Forall_cons; [intros; congruence|]); apply Forall_nil|]); apply Forall_nil. }
    intros a b1 b2 f1 f2 Ha Ho H1 H2 Hf1 Hf2. assert (Ha' : In a [4; 2; 3; 1; 0]) by (vm_compute in Ha; exact Ha).
    pose proof (in_cases _ _ G a Ha' Ho) as G'. rewrite (in_cases _ _ G' b1 H1 f1 Hf1), (in_cases _ _ G' b2 H2 f2 Hf2). reflexivity.
Qed.
Close Scope string_scope.

(** ** C38 *)
Theorem C38_choices_partial : forall sf s nf t, get_field sf s = Good nf -> get_type s (f_schema_type sf) = Good t ->
  length (filter (fun v => str_eqb v []) (x_values t)) <= 1 ->
  f_choices nf = match x_values t with [] => None | vs => Some ([] :: filter (fun v => negb (str_eqb v [])) vs) end.
Proof.
  intros sf s nf t H Ht Hb. unfold get_field in H. rewrite Ht in H. destruct (base_type t) as [b|]; [|discriminate]. destruct (str_eqb b (u "string")); [|discriminate]. injection H as <-. cbn [f_choices].
  enough (G : (if str_mem [] (x_values t) then remove_first [] (x_values t) else x_values t) = filter (fun v => negb (str_eqb v [])) (x_values t)) by (destruct (x_values t); [reflexivity|]; f_equal; f_equal; exact G).
  induction (x_values t) as [|v vs IH]; [reflexivity|].
  assert (Hnone : forall l, length (filter (fun v => str_eqb v []) l) = 0 -> filter (fun v => negb (str_eqb v [])) l = l /\ str_mem [] l = false).
  { induction l as [|x l IHl]; intros Hl; [auto|]. cbn in Hl |- *. destruct (str_eqb x []) eqn:Ex; [discriminate|]. destruct (IHl Hl) as [G1 G2]. cbn [negb]. rewrite G1. split; [reflexivity|]. destruct x; [discriminate Ex|]. exact G2. }
  cbn [filter] in Hb |- *. unfold str_mem in *. cbn [existsb remove_first]. rewrite (str_eqb_sym [] v). destruct (str_eqb_spec v []) as [->|N]; cbn [orb negb].
  - cbn [length] in Hb. symmetry. apply (Hnone vs). lia.
  - specialize (IH Hb). cbn [length] in *. rewrite <- IH. destruct (existsb (str_eqb []) vs); reflexivity.
Qed.
Theorem C38_kept : forall sf s nf, get_field sf s = Good nf ->
  f_class nf = FcString /\ f_xpath nf = f_xpath sf /\ f_required nf = f_required sf /\ f_counter nf = f_counter sf.
Proof.
  intros sf s nf H. unfold get_field in H. destruct (get_type s (f_schema_type sf)) as [t|]; [|discriminate]. destruct (base_type t) as [b|]; [|discriminate]. destruct (str_eqb b (u "string")); [|discriminate]. injection H as <-. cbn. auto.
Qed.
(** it is replaced exactly if the schema has one type of that name, restricting string or <prefix>:string *)
Lemma split_on_one c s : split_on c s = [s] <-> ~ In c s.
Proof.
  induction s as [|x s IH]; cbn; [split; auto|]. destruct (N.eqb_spec x c) as [->|N].
  - split; [intros H; discriminate H|tauto].
  - destruct (split_on c s) as [|w ws] eqn:E.
    { exfalso. clear IH. destruct s; cbn in E; [discriminate|]. destruct (n =? c)%N; [discriminate|]. destruct (split_on c s); discriminate. }
    split.
    + intros H. injection H as -> ->. intros [H|H]; [auto|]. exact (proj1 IH eq_refl H).
    + intros H. assert (G : w :: ws = [s]) by (apply IH; tauto). injection G as -> ->. reflexivity.
Qed.
Lemma split_on_nonnil c s : split_on c s <> [].
Proof. destruct s; cbn; [discriminate|]. destruct (n =? c)%N; [discriminate|]. destruct (split_on c s); discriminate. Qed.
Lemma split_on_two c s a b : split_on c s = [a; b] <-> s = a ++ c :: b /\ ~ In c a /\ ~ In c b.
Proof.
  revert a b. induction s as [|x s IH]; intros a b; cbn.
  - split; [discriminate|]. intros [H _]. destruct a; discriminate.
  - destruct (N.eqb_spec x c) as [->|N].
    + split.
      * intros H. injection H as <- H. assert (b = s) as ->. { destruct (in_dec N.eq_dec c s) as [Hi|Hi]; [|apply split_on_one in Hi; congruence]. exfalso.
          clear -H Hi. revert b H. induction s as [|y s IHs]; [contradiction|]. intros b H. cbn in H. destruct (N.eqb_spec y c) as [->|N]; [injection H as _ H; destruct s; cbn in H; [discriminate|]; destruct (n =? c)%N; [discriminate|]; destruct (split_on c s); discriminate|].
          destruct (split_on c s) as [|w ws] eqn:E; [now apply split_on_nonnil in E|]. injection H as <- ->. destruct Hi as [Hi|Hi]; [now apply N|]. now apply (IHs Hi w). }
        split; [reflexivity|]. split; [tauto|]. now apply split_on_one.
      * intros (H & Ha & Hb). destruct a as [|y a]; [|injection H as -> _; exfalso; apply Ha; now left]. injection H as ->. f_equal. now apply split_on_one.
    + destruct (split_on c s) as [|w ws] eqn:E; [now apply split_on_nonnil in E|]. split.
      * intros H. injection H as <- ->. destruct (proj1 (IH w b) eq_refl) as (-> & Ha & Hb). split; [reflexivity|]. split; [|assumption]. intros [H|H]; auto.
      * intros (H & Ha & Hb). destruct a as [|y a]; [injection H as ->; contradiction|]. injection H as -> ->.
        assert (G : w :: ws = [a; b]) by (apply IH; split; [reflexivity|]; split; [intros G; apply Ha; now right|assumption]). injection G as -> ->. reflexivity.
Qed.
Theorem C38_replaced_iff : forall sf s, (exists nf, get_field sf s = Good nf) <->
  exists t, filter (fun x => str_eqb (x_name x) (f_schema_type sf)) s = [t] /\
    (x_base t = Some (u "string") \/ exists pre, ~ In (ch ":") pre /\ x_base t = Some (pre ++ ch ":" :: u "string")).
Proof.
  intros sf s. unfold get_field, get_type. destruct (filter _ s) as [|t [|t2 r]] eqn:Ef.
  - split; [intros [nf H]; discriminate|intros (t & H & _); discriminate].
  - assert (Hns : ~ In (ch ":") (u "string")) by (vm_compute; intuition discriminate).
    assert (G : base_type t = Good (u "string") <-> (x_base t = Some (u "string") \/ exists pre, ~ In (ch ":") pre /\ x_base t = Some (pre ++ ch ":" :: u "string"))).
    { unfold base_type. destruct (x_base t) as [b|]; [|split; [discriminate|intros [H|(p & _ & H)]; discriminate]].
      destruct (split_on (ch ":") b) as [|a [|a2 [|a3 l]]] eqn:Es.
      - now apply split_on_nonnil in Es.
      - split; [intros H; injection H as ->; now left|]. intros [H|(p & Hp & H)]; injection H as ->; [reflexivity|].
        exfalso. assert (E2 : split_on (ch ":") (p ++ ch ":" :: u "string") = [p; u "string"]) by (apply split_on_two; auto). congruence.
      - split.
        + intros H. injection H as ->. apply split_on_two in Es as (-> & Ha & _). right. exists a. auto.
        + intros [H|(p & Hp & H)]; injection H as ->.
          * apply split_on_one in Hns. congruence.
          * assert (E2 : split_on (ch ":") (p ++ ch ":" :: u "string") = [p; u "string"]) by (apply split_on_two; auto). congruence.
      - split; [discriminate|]. intros [H|(p & Hp & H)]; injection H as ->.
        + apply split_on_one in Hns. congruence.
        + assert (E2 : split_on (ch ":") (p ++ ch ":" :: u "string") = [p; u "string"]) by (apply split_on_two; auto). congruence. }
    split.
    + intros [nf H]. exists t. split; [reflexivity|]. apply G. destruct (base_type t) as [b|]; [|discriminate]. destruct (str_eqb_spec b (u "string")) as [->|]; [reflexivity|discriminate].
    + intros (t' & H & Hb). injection H as <-. apply G in Hb. rewrite Hb, str_eqb_refl. eauto.
  - split; [intros [nf H]; discriminate|intros (t' & H & _); discriminate].
Qed.
(** ** C38: which schema: the one the class statement names, else the one found on the class's last base *)
Definition schema_used (files : str -> option schema) (w : world) (bs : list nat) (attrs : list (str * attr)) : option schema :=
  match dget (u "XSD_SCHEMA") attrs with
  | Some (AXsd (Some x)) => files x
  | Some _ => None
  | None => match rev bs with
            | b :: _ => match attribute w b (u "XSD_SCHEMA") with Some (AXsd (Some x)) => files x | _ => None end
            | [] => None
            end
  end.
Lemma base_xsd_last w bs : base_xsd w bs = match rev bs with b :: _ => match attribute w b (u "XSD_SCHEMA") with Some (AXsd (Some x)) => Some x | _ => None end | [] => None end.
Proof.
  unfold base_xsd, attribute. rewrite <- (rev_involutive bs) at 1. destruct (rev bs) as [|b r]; [reflexivity|]. cbn. now rewrite fold_left_app.
Qed.
Lemma schema_for_used files w bs attrs r : schema_for files attrs (base_xsd w bs) = Good r -> r = schema_used files w bs attrs.
Proof.
  unfold schema_for, schema_used. rewrite base_xsd_last. destruct (dget (u "XSD_SCHEMA") attrs) as [[| | |[x|]|]|]; try discriminate; [destruct (files x); [now intros [= <-]|discriminate]|].
  destruct (rev bs) as [|b r0]; [now intros [= <-]|]. destruct (attribute w b (u "XSD_SCHEMA")) as [[| | |[x|]|]|]; try (now intros [= <-]). destruct (files x); [now intros [= <-]|discriminate].
Qed.
Definition rec_named (b : building) : Prop := forall f, In f (b_rec b) -> exists fo s, nth_error (b_heap b) f = Some fo /\ f_nclass fo = NcName s.
Lemma add_attr_named files name attrs bxsd b na b' : add_attr files name attrs bxsd b na = Good b' -> rec_named b -> rec_named b'.
Proof.
  intros H R f I. destruct (add_attr_rec _ _ _ _ _ _ _ H) as (A1 & A2 & A3 & A4). destruct (A2 f I) as [G|G]; [destruct (R f G) as (fo & s & G1 & G2); exists fo, s; auto|].
  destruct na as [n a]. cbn in G. subst a. cbn in H. destruct (nth_error (b_heap b) f) as [fo|] eqn:Ef; [|discriminate].
  destruct (f_class fo) eqn:Ec.
  2: { destruct (schema_for files attrs bxsd) as [[s|]|]; [|rewrite Ef in H|discriminate].
       - destruct (get_field fo s) as [nf|] eqn:Eg; [|discriminate]. rewrite nth_error_app2, Nat.sub_diag in H by lia. cbn in H. rewrite (get_field_plain _ _ _ Eg) in H. injection H as <-. cbn in *.
         destruct (R f I) as (fo' & s' & G1 & G2). exists fo', s'. split; [now apply nth_app_lt|exact G2].
       - destruct (f_nclass fo) as [|s|c] eqn:En; [injection H as <-; now apply R| |injection H as <-; now apply R]. exists fo, s. destruct (_ || _); [|discriminate]. injection H as <-. auto. }
  all: rewrite Ef in H; destruct (f_nclass fo) as [|s|c] eqn:En; [injection H as <-; now apply R| |injection H as <-; now apply R]; exists fo, s; destruct (_ || _); [|discriminate]; injection H as <-; auto.
Qed.
Lemma add_attr_fields files name attrs bxsd b na b' m : add_attr files name attrs bxsd b na = Good b' -> fst na <> m -> dget m (b_fields b') = dget m (b_fields b).
Proof.
  intros H N. destruct na as [n a]. cbn in N. destruct a; cbn in H; try (injection H as <-; reflexivity).
  destruct (nth_error (b_heap b) f) as [fo0|]; [|discriminate]. match type of H with match ?R with _ => _ end = _ => destruct R as [[f1 heap]|] end; [|discriminate].
  destruct (nth_error heap f1) as [fo|]; [|discriminate].
  assert (G : dget m (dset n f1 (b_fields b)) = dget m (b_fields b)). { rewrite dget_dset. destruct (str_eqb_spec n m); [contradiction|reflexivity]. }
  destruct (f_nclass fo); [injection H as <-; exact G| |injection H as <-; exact G]. destruct (_ || _); [|discriminate]. injection H as <-. exact G.
Qed.
Lemma add_attrs_schema files name attrs bxsd : forall todo b b', add_attrs files name attrs bxsd todo b = Good b' -> NoDup (map fst todo) -> rec_named b ->
  rec_named b' /\ (forall m, ~ In m (map fst todo) -> dget m (b_fields b') = dget m (b_fields b)) /\
  forall n f sf, In (n, AField f) todo -> nth_error (b_heap b) f = Some sf -> f_class sf = FcSchema ->
    match schema_for files attrs bxsd with
    | Good (Some s) => exists nf f', get_field sf s = Good nf /\ dget n (b_fields b') = Some f' /\ nth_error (b_heap b') f' = Some nf
    | Good None => dget n (b_fields b') = Some f
    | Bad _ => False
    end.
Proof.
  induction todo as [|na todo IH]; intros b b' H ND R; cbn in H.
  - injection H as <-. split; [exact R|]. split; [auto|]. intros n f sf [].
  - destruct (add_attr files name attrs bxsd b na) as [b1|] eqn:E; [|discriminate]. cbn in ND. apply NoDup_cons_iff in ND as [N1 N2].
    pose proof (add_attr_named _ _ _ _ _ _ _ E R) as R1. destruct (IH b1 b' H N2 R1) as (B1 & B2 & B3). split; [exact B1|]. split.
    + intros m Hm. cbn in Hm. rewrite B2 by tauto. apply (add_attr_fields _ _ _ _ _ _ _ m E). tauto.
    + intros n f sf [I|I] Hf Hc.
      * subst na. destruct (add_attrs_rec _ _ _ _ _ _ _ H) as (K & _). rewrite (B2 n N1). cbn in E. rewrite Hf, Hc in E.
        destruct (schema_for files attrs bxsd) as [[s|]|]; [| |discriminate].
        -- destruct (get_field sf s) as [nf|] eqn:Eg; [|discriminate]. rewrite nth_error_app2, Nat.sub_diag in E by lia. cbn [nth_error] in E. rewrite (get_field_plain _ _ _ Eg) in E. injection E as <-.
           exists nf, (length (b_heap b)). split; [reflexivity|]. split; [cbn [b_fields]; now rewrite dget_dset, str_eqb_refl|]. apply K. cbn. rewrite nth_error_app2, Nat.sub_diag by lia. reflexivity.
        -- rewrite Hf in E. destruct (f_nclass sf); [injection E as <-; cbn [b_fields]; now rewrite dget_dset, str_eqb_refl| |injection E as <-; cbn [b_fields]; now rewrite dget_dset, str_eqb_refl].
           destruct (_ || _); [|discriminate]. injection E as <-. cbn [b_fields]. now rewrite dget_dset, str_eqb_refl.
      * apply (B3 n f sf I); [|exact Hc]. now apply (add_attr_rec _ _ _ _ _ _ _ E).
Qed.
(** in a class statement that succeeds, every SchemaField is replaced by the string field for its type in the schema used; if there is
    none it stays as it is *)
Theorem C38_schema_used : forall files w name bs attrs w' n f sf, define files w name bs attrs = Good w' -> NoDup (map fst attrs) ->
  In (n, AField f) attrs -> nth_error (w_fields w) f = Some sf -> f_class sf = FcSchema ->
  match schema_used files w bs attrs with
  | Some s => exists nf f', get_field sf s = Good nf /\ fields_of w' (length (w_classes w)) n = Some f' /\ nth_error (w_fields w') f' = Some nf
  | None => fields_of w' (length (w_classes w)) n = Some f
  end.
Proof.
  intros files w name bs attrs w' n f sf H ND I Hf Hc. unfold define in H. destruct (negb _); [discriminate|]. destruct (add_attrs _ _ _ _ _ _) as [b|] eqn:Ea; [|discriminate].
  destruct (linearise _ _ _) as [l|]; [|discriminate]. destruct (patch _ _ _ _) as [heap|] eqn:Ep; [|discriminate]. injection H as <-.
  destruct (add_attrs_schema _ _ _ _ _ _ _ Ea ND (fun f I => match I with end)) as (R & _ & G). specialize (G n f sf I Hf Hc).
  unfold fields_of. cbn [w_classes w_fields]. rewrite nth_error_app2, Nat.sub_diag by lia. cbn [nth_error c_fields].
  destruct (schema_for files attrs (base_xsd w bs)) as [r|] eqn:Es; [|contradiction]. rewrite <- (schema_for_used _ _ _ _ _ Es). destruct r as [s|]; [|exact G].
  destruct G as (nf & f' & G1 & G2 & G3). exists nf, f'. split; [exact G1|]. split; [exact G2|].
  rewrite (patch_spec _ _ _ _ _ Ep f'). destruct (existsb (Nat.eqb f') (b_rec b)) eqn:Ex; [|exact G3]. exfalso.
  apply existsb_exists in Ex as (x & Ix & He). apply Nat.eqb_eq in He. subst x. destruct (R f' Ix) as (fo & s' & K1 & K2). rewrite G3 in K1. injection K1 as <-. rewrite (get_field_plain _ _ _ G1) in K2. discriminate.
Qed.
(** C34: a field object made later has a greater creation counter than every earlier one *)
Theorem C34_counters : forall files p f, let w := run files p in let w' := run1 files w (SField f) in
  exists fo, nth_error (w_fields w') (length (w_fields w)) = Some fo /\ f_xpath fo = f_xpath f /\ forall i g, nth_error (w_fields w) i = Some g -> f_counter g < f_counter fo.
Proof.
  intros files p f w w'.
  assert (Inv : forall i g, nth_error (w_fields w) i = Some g -> f_counter g < length (w_fields w)).
  { unfold w, run. enough (G : forall v, (forall i g, nth_error (w_fields v) i = Some g -> f_counter g < length (w_fields v)) ->
       forall i g, nth_error (w_fields (fold_left (run1 files) p v)) i = Some g -> f_counter g < length (w_fields (fold_left (run1 files) p v))).
    { apply G. intros i g H. destruct i; discriminate H. }
    induction p as [|s p IH]; intros v Hv; [exact Hv|]. cbn [fold_left]. apply IH. destruct s as [fo|n bs attrs|n bs attrs]; cbn [run1].
    - intros i g. unfold new_field. cbn [w_fields]. rewrite app_length. cbn [length]. intros Hg.
      destruct (Nat.lt_ge_cases i (length (w_fields v))) as [L|L]; [rewrite nth_error_app1 in Hg by exact L; apply Hv in Hg; lia|].
      rewrite nth_error_app2 in Hg by exact L. destruct (i - length (w_fields v)) as [|[|k]]; cbn in Hg; try discriminate. injection Hg as <-. cbn. lia.
    - destruct (define files v n bs attrs) as [v'|] eqn:E; [|exact Hv]. unfold define in E. destruct (negb _); [discriminate|]. destruct (add_attrs _ _ _ _ _ _) as [b|] eqn:Ea; [|discriminate].
      destruct (linearise _ _ _); [|discriminate]. destruct (patch _ _ _ _) as [heap|] eqn:Ep; [|discriminate]. injection E as <-. cbn [w_fields].
      assert (Hb : forall i g, nth_error (b_heap b) i = Some g -> f_counter g < length (b_heap b)).
      { assert (A : forall todo b0 b1, add_attrs files n attrs (base_xsd v bs) todo b0 = Good b1 -> (forall i g, nth_error (b_heap b0) i = Some g -> f_counter g < length (b_heap b0)) ->
           forall i g, nth_error (b_heap b1) i = Some g -> f_counter g < length (b_heap b1)).
        { induction todo as [|[m a] todo IHt]; intros b0 b1 H0 HH; cbn [add_attrs] in H0; [now injection H0 as <-|].
          destruct (add_attr files n attrs (base_xsd v bs) b0 (m, a)) as [b2|] eqn:E2; [|discriminate]. apply (IHt b2 b1 H0). clear IHt H0.
          destruct a; cbn in E2; try (injection E2 as <-; exact HH). destruct (nth_error (b_heap b0) f0) as [fo0|] eqn:Ef; [|discriminate].
          match type of E2 with match ?R with _ => _ end = _ => destruct R as [[f1 heap1]|] eqn:ER end; [|discriminate].
          assert (H1 : forall i g, nth_error heap1 i = Some g -> f_counter g < length heap1).
          { destruct (f_class fo0); try (injection ER as <- <-; exact HH). destruct (schema_for files attrs (base_xsd v bs)) as [[s|]|]; [|injection ER as <- <-; exact HH|discriminate].
            destruct (get_field fo0 s) as [nf|] eqn:Eg; [|discriminate]. injection ER as <- <-. intros i g Hg. rewrite app_length. cbn [length].
            destruct (Nat.lt_ge_cases i (length (b_heap b0))) as [L|L]; [rewrite nth_error_app1 in Hg by exact L; apply HH in Hg; lia|].
            rewrite nth_error_app2 in Hg by exact L. destruct (i - length (b_heap b0)) as [|[|k]]; cbn in Hg; try discriminate. injection Hg as <-.
            destruct (C38_kept _ _ _ Eg) as (_ & _ & _ & ->). apply HH in Ef. lia. }
          destruct (nth_error heap1 f1) as [fo|]; [|discriminate]. destruct (f_nclass fo); [injection E2 as <-; exact H1| |injection E2 as <-; exact H1]. destruct (_ || _); [|discriminate]. injection E2 as <-. exact H1. }
        exact (A _ _ _ Ea Hv). }
      assert (L : length heap = length (b_heap b)).
      { clear -Ep. revert Ep. generalize (b_heap b). induction (b_rec b) as [|r rs IHr]; intros h Ep; cbn in Ep; [now injection Ep as <-|].
        destruct (nth_error h r) as [fo|]; [|discriminate]. destruct (f_nclass fo); try discriminate. destruct (_ || _); [|discriminate]. apply IHr in Ep. rewrite Ep. clear.
        revert r. induction h as [|x h IHh]; intros [|r]; cbn; auto. }
      intros i g Hg. rewrite (patch_spec _ _ _ _ _ Ep i) in Hg. rewrite L. destruct (existsb _ _); [|eauto]. destruct (nth_error (b_heap b) i) as [g0|] eqn:E0; [|discriminate]. injection Hg as <-. cbn. eauto.
    - destruct (define_plain v n bs attrs) as [v'|] eqn:E; [|exact Hv]. unfold define_plain in E. destruct (negb _); [discriminate|]. destruct (linearise _ _ _); [|discriminate]. injection E as <-. exact Hv. }
  unfold w'. cbn [run1]. unfold new_field. cbn [w_fields]. rewrite nth_error_app2, Nat.sub_diag by lia. eexists. split; [reflexivity|]. split; [reflexivity|]. exact Inv.
Qed.

Open Scope string_scope.
Definition schemaf : field := mkField FcSchema (u "t") (Some true) (Some (u "Type")) (Some (u "help")) None (u "T") NcNone 7.
(** labels are lost; with two blank values in the schema a second blank stays *)
Theorem C38_labels_refuted : exists nf, get_field schemaf [mkXsd (u "T") (Some (u "xs:string")) [u "a"]] = Good nf /\ f_verbose nf <> f_verbose schemaf /\ f_help nf <> f_help schemaf.
Proof. eexists. split; [vm_compute; reflexivity|]. split; vm_compute; discriminate. Qed.
Theorem C38_two_blanks_refuted : exists nf, get_field schemaf [mkXsd (u "T") (Some (u "xs:string")) [u ""; u "a"; u ""]] = Good nf /\ f_choices nf = Some [u ""; u "a"; u ""].
Proof. eexists. split; vm_compute; reflexivity. Qed.
(** a base without a schema hides the schema of the bases before it: the field is then not replaced *)
Theorem C38_mixin_refuted : let s := [mkXsd (u "T") (Some (u "xs:string")) [u "a"]] in
  let w := run (fun x => if str_eqb x (u "f.xsd") then Some s else None)
    [SField schemaf; xml_object; cl "A" [0] [("XSD_SCHEMA", AXsd (Some (u "f.xsd")))]; cl "Mixin" [0] []; cl "M" [1; 2] [("t", AField 0)]] in
  attribute w 3 (u "XSD_SCHEMA") = Some (AXsd (Some (u "f.xsd"))) /\ fields_of w 3 (u "t") = Some 0 /\ option_map f_class (nth_error (w_fields w) 0) = Some FcSchema.
Proof. vm_compute. auto. Qed.
Example C38_case : let s := [mkXsd (u "S") (Some (u "xs:int")) []; mkXsd (u "T") (Some (u "xs:string")) [u "b"; u ""; u "a"]] in
  exists nf, get_field schemaf s = Good nf /\ f_choices nf = Some [u ""; u "b"; u "a"] /\
  (let w := run (fun x => if str_eqb x (u "f.xsd") then Some s else None) [SField schemaf; xml_object; cl "M" [0] [("XSD_SCHEMA", AXsd (Some (u "f.xsd"))); ("t", AField 0)]] in
   fields_of w 1 (u "t") = Some 1 /\ attribute w 1 (u "t") = Some (AField 1) /\ option_map f_choices (nth_error (w_fields w) 1) = Some (Some [u ""; u "b"; u "a"])).
Proof. eexists. vm_compute. auto. Qed.
Close Scope string_scope.

