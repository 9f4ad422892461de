(** E-mail messages as CERP XML: C46, C47. *)
From Coq Require Import String List Arith NArith ZArith Bool Lia.
From Verif Require Import Cerp.
From Verif Require Import XPathEval.
Import ListNotations.
Opaque u.

(** ** Specification *)
(** a character XML does not allow that the property wants removed *)
Definition bad_control (c : N) : Prop := (c < 32 /\ c <> 9 /\ c <> 10 /\ c <> 13)%N.
(** [r] is [s] without the characters for which [P] holds *)
Inductive without_chars (P : N -> Prop) : str -> str -> Prop :=
| wo_nil : without_chars P [] []
| wo_drop c s r : P c -> without_chars P s r -> without_chars P (c :: s) r
| wo_keep c s r : ~ P c -> without_chars P s r -> without_chars P (c :: s) (c :: r).

(** <xm:n>v</xm:n> *)
Definition elem (n : string) (v : str) : node := Elem (xn n) [] (Some v) [].
Definition group (q : qname) (ks : list node) : node := Elem q [] None (map (fun k => (k, None)) ks).
Definition opt_elem (n : string) (o : option str) : list node := match o with Some v => [elem n v] | None => [] end.
Definition nonempty (o : option str) : option str := match o with Some [] => None | o => o end.

(** the document the conversion makes *)
Definition message_kids (parse_date : str -> str) (eol : str) (id_text : option str) (m : email) : list node :=
  opt_elem "LocalId" id_text ++
  match nonempty (get_first "Message-Id" m) with Some v => [Elem (xn "MessageId") [(QN None (u "Supplied"), u "1")] (Some v) []] | None => [] end ++
  opt_elem "MimeVersion" (get_first "MIME-Version" m) ++
  map (elem "OrigDate") (map parse_date (get_all "Date" m)) ++
  map (elem "From") (get_all "From" m) ++
  map (elem "Sender") (get_all "From" m) ++
  map (elem "To") (get_all "To" m) ++
  map (elem "Cc") (get_all "Cc" m) ++
  map (elem "Bcc") (get_all "Bcc" m) ++
  map (elem "InReplyTo") (get_all "In-Reply-To" m) ++
  map (elem "References") (get_all "References" m) ++
  map (elem "Subject") (get_all "Subject" m) ++
  map (elem "Comments") (get_all "Comments" m) ++
  map (elem "Keywords") (get_all "Keywords" m) ++
  map (fun h => group (xn "Header") [elem "Name" (fst h); elem "Value" (snd h)]) (em_headers m) ++
  (if em_multipart m then [] else
     [group (xn "SingleBody")
        ((match nonempty (get_first "Content-Type" m) with Some _ => [elem "ContentType" (em_type m)] | None => [] end) ++
         opt_elem "Charset" (nonempty (em_charset m)) ++ opt_elem "ContentName" (nonempty (em_filename m)) ++
         [group (xn "BodyContent") [elem "Content" (clean (em_payload m))]])]) ++
  [elem "Eol" eol].

(** all strings are ones XML can hold *)
Definition storable_email (parse_date : str -> str) (m : email) : Prop :=
  (forall h, In h (em_headers m) -> xml_valid (fst h) = true /\ xml_valid (snd h) = true) /\
  (forall s, In s (get_all "Date" m) -> xml_valid (parse_date s) = true) /\
  xml_valid (em_type m) = true /\
  (forall s, em_charset m = Some s -> xml_valid s = true) /\ (forall s, em_filename m = Some s -> xml_valid s = true) /\
  xml_valid (clean (em_payload m)) = true.

(** ** C46 *)
Lemma deleted_iff c : deleted c = true <-> bad_control c.
Proof. unfold deleted, bad_control. rewrite andb_true_iff, N.ltb_lt, negb_true_iff, !orb_false_iff, !N.eqb_neq. tauto. Qed.
Lemma clean_spec s : without_chars bad_control s (clean s).
Proof.
  induction s as [|c s IH]; cbn [clean filter]; [constructor|]. fold (clean s). destruct (deleted c) eqn:E; cbn [negb].
  - apply wo_drop; [now apply deleted_iff|assumption].
  - apply wo_keep; [|assumption]. rewrite <- deleted_iff, E. discriminate.
Qed.
Theorem C46_clean : forall s, without_chars bad_control s (clean s) /\ (forall c, In c (clean s) -> ~ bad_control c) /\ clean (clean s) = clean s.
Proof.
  intros s. split; [apply clean_spec|]. split.
  - intros c Hc. unfold clean in Hc. apply filter_In in Hc as [_ Hc]. rewrite <- deleted_iff. destruct (deleted c); [discriminate|]. discriminate.
  - unfold clean. induction s as [|c s IH]; cbn [filter]; [reflexivity|]. destruct (negb (deleted c)) eqn:E; cbn [filter]; rewrite ?E, IH; reflexivity.
Qed.
(** nothing else is touched: a payload without such characters is stored as it is *)
Theorem C46_unchanged : forall s, (forall c, In c s -> ~ bad_control c) -> clean s = s.
Proof.
  intros s H. unfold clean. induction s as [|c s IH]; cbn [filter]; [reflexivity|]. rewrite IH by (intros; apply H; now right).
  assert (Hc : ~ bad_control c) by (apply H; now left). rewrite <- deleted_iff in Hc. destruct (deleted c); [now destruct Hc|reflexivity].
Qed.
(** the result can be stored in XML exactly if the rest of the payload can: the remaining characters XML refuses are surrogates,
    U+FFFE, U+FFFF *)
Theorem C46_storable_partial : forall s, xml_valid (clean s) = true <->
  (forall c, In c s -> c < 1114112 /\ ~ (55296 <= c <= 57343) /\ c <> 65534 /\ c <> 65535)%N.
Proof.
  intros s. unfold xml_valid. rewrite forallb_forall.
  assert (X : forall c, xml_char c = true <-> ((c = 9 \/ c = 10 \/ c = 13 \/ 32 <= c) /\ c < 1114112 /\ ~ (55296 <= c <= 57343) /\ c <> 65534 /\ c <> 65535)%N).
  { intros c. unfold xml_char, in_range. rewrite !orb_true_iff, !andb_true_iff, !N.eqb_eq, !N.leb_le. lia. }
  split.
  - intros H c Hc. destruct (deleted c) eqn:E; [apply deleted_iff in E; unfold bad_control in E; lia|].
    apply X. apply H. unfold clean. apply filter_In. split; [assumption|now rewrite E].
  - intros H c Hc. unfold clean in Hc. apply filter_In in Hc as [Hc Hd]. specialize (H c Hc). apply X. split; [|exact H].
    assert (~ bad_control c) by (rewrite <- deleted_iff; destruct (deleted c); discriminate). unfold bad_control in *. lia.
Qed.

(** ** lemmas about appending to a document *)
Definition plain (n : string) : Prop := str_eqb (u n) (u "*") = false.
Definition tagged (n : string) (k : node) : bool := match k with Elem q _ _ _ => qeqb q (xn n) | Misc _ => false end.
Lemma test_tagged n k : plain n -> test_node Ex (Some (u "xm")) (u n) k = tagged n k.
Proof. intros H. destruct k as [q a t ks|s]; [|reflexivity]. cbn [test_node tagged]. unfold test_q. rewrite H. reflexivity. Qed.
Definition hits (n : string) (i : nat) (ks : list node) : list item :=
  flat_map (fun x => if tagged n (snd x) then [IElem [fst x] (snd x)] else []) (enum i ks).
Lemma kid_items_hits n ks : forall i, plain n -> flat_map (fun x => if test_node Ex (Some (u "xm")) (u n) (fst (snd x)) then [IElem ([] ++ [fst x]) (fst (snd x))] else []) (enum i (map (fun k : node => (k, @None str)) ks)) = hits n i ks.
Proof. induction ks as [|k ks IH]; intros i H; [reflexivity|]. unfold hits. cbn [map enum flat_map fst snd app]. rewrite (test_tagged n k H). rewrite IH by assumption. reflexivity. Qed.
Lemma eval_group n q ks : plain n -> eval_at Ex (xm n) doc_root (group q ks) = Ret (XN (hits n 0 ks)).
Proof.
  intros H. unfold eval_at, doc_root. cbn [get_at]. unfold xpath. change (supported Ex (xm n)) with true. cbn iota. unfold xm. cbn [ev fold_left step_items]. change (child_axis None) with true. cbn iota.
  unfold kid_items. cbn [group kids_of]. now rewrite kid_items_hits.
Qed.
Lemma hits_app n a : forall b i, hits n i (a ++ b) = hits n i a ++ hits n (i + length a) b.
Proof.
  induction a as [|k a IH]; intros b i; [cbn [app length hits enum flat_map]; now rewrite Nat.add_0_r|]. unfold hits in *. cbn [app enum flat_map length fst snd]. rewrite IH. replace (i + S (length a)) with (S i + length a) by lia. now rewrite app_assoc.
Qed.
Lemma hits_none n ks : forall i, (forall k, In k ks -> tagged n k = false) -> hits n i ks = [].
Proof. induction ks as [|k ks IH]; intros i H; [reflexivity|]. unfold hits in *. cbn [enum flat_map fst snd]. rewrite (H k) by now left. apply IH. intros; apply H; now right. Qed.
Lemma hits_all n ks : forall i, (forall k, In k ks -> tagged n k = true) -> hits n i ks = map (fun x => IElem [fst x] (snd x)) (enum i ks).
Proof. induction ks as [|k ks IH]; intros i H; [reflexivity|]. unfold hits in *. cbn [enum flat_map map fst snd]. rewrite (H k) by now left. cbn [app]. f_equal. apply IH. intros; apply H; now right. Qed.
Lemma enum_len {A} (l : list A) : forall i, length (enum i l) = length l.
Proof. induction l; intros i; cbn; auto. Qed.
Lemma enum_app {A} (a b : list A) : forall i, enum i (a ++ b) = enum i a ++ enum (i + length a) b.
Proof. induction a as [|x a IH]; intros i; cbn; [now rewrite Nat.add_0_r|]. rewrite IH. do 3 f_equal. lia. Qed.

Lemma upd_last q ks k f : upd_at [length ks] f (group q (ks ++ [k])) = group q (ks ++ [f k]).
Proof.
  cbn [upd_at group set_kids]. unfold group. f_equal. rewrite !map_app. cbn [map]. rewrite <- (map_length (fun k => (k, @None str)) ks) at 1. generalize (map (fun k : node => (k, @None str)) ks). intros l. induction l as [|x l IH]; cbn; [reflexivity|now rewrite IH].
Qed.
Lemma get_last q ks k : get_at [length ks] (group q (ks ++ [k])) = Some k.
Proof.
  cbn [get_at group kids_of]. rewrite map_app, nth_error_app2; rewrite map_length; [|lia]. now rewrite Nat.sub_diag.
Qed.
Lemma create_end n q ks ins : plain n -> match ins with Some i => i = length ks | None => True end ->
  build Ex Create (xm n) (Some doc_root) ins (group q ks) = (group q (ks ++ [Elem (xn n) [] None []]), Ret (Some (RElem [length ks]))).
Proof.
  intros H Hi. unfold xm. cbn [build forallb]. change (child_axis None) with true. cbn iota. unfold bind at 1. unfold create_child. change (child_ns Ex (Some (u "xm"))) with (Ret (Some cerp_ns)). cbn iota.
  unfold name_valid. rewrite H. cbn [negb]. cbn iota. unfold doc_root. cbn [get_at]. cbn [group kids_of]. rewrite map_length.
  assert (Hm : match ins with Some i => Nat.min i (length ks) | None => length ks end = length ks) by (destruct ins; [subst; apply Nat.min_id|reflexivity]). rewrite Hm.
  cbn [upd_at]. unfold bind. cbn [iterM]. unfold ret. cbn [insert_kid set_kids app]. unfold insert_kid, set_kids, group. f_equal. f_equal. rewrite map_app. cbn [map].
  unfold insert_nth. rewrite firstn_all2, skipn_all2 by (rewrite map_length; lia). reflexivity.
Qed.
Lemma set_absent n q ks v : plain n -> xml_valid v = true -> (forall k, In k ks -> tagged n k = false) ->
  mgr_set Ex (xm n) (Some v) (group q ks) = (group q (ks ++ [elem n v]), Ret tt).
Proof.
  intros H Hv Hk. unfold mgr_set. unfold bind at 1. unfold reading, find_ast. rewrite eval_group by assumption. rewrite hits_none by assumption. cbn [first_match]. unfold bind. rewrite create_end by auto.
  unfold set_in_xml. rewrite get_last. cbn [kids_of]. unfold set_text_at. rewrite Hv. now rewrite upd_last.
Qed.
Lemma set_none n q ks : plain n -> (forall k, In k ks -> tagged n k = false) -> mgr_set Ex (xm n) None (group q ks) = (group q ks, Ret tt).
Proof. intros H Hk. unfold mgr_set. unfold bind at 1. unfold reading, find_ast. rewrite eval_group by assumption. rewrite hits_none by assumption. reflexivity. Qed.

Lemma tagged_elem n v : tagged n (elem n v) = true. Proof. cbn. apply qeqb_refl. Qed.
Lemma matches_block n q ks vs : plain n -> (forall k, In k ks -> tagged n k = false) -> (forall k, In k vs -> tagged n k = true) ->
  matches Ex (xm n) (group q (ks ++ vs)) = Ret (map (fun x => IElem [fst x] (snd x)) (enum (length ks) vs)).
Proof. intros H Hk Hv. unfold matches. rewrite eval_group by assumption. rewrite hits_app, hits_none, hits_all by assumption. reflexivity. Qed.
Lemma last_item_block vs i : last_item (map (fun x => IElem [fst x] (snd x)) (enum i vs)) = match rev vs with [] => None | k :: _ => Some (IElem [i + length vs - 1] k) end.
Proof.
  unfold last_item. destruct vs as [|v0 vs'] using rev_ind; [reflexivity|]. rewrite enum_app, map_app, !rev_app_distr. cbn. rewrite app_length. cbn. do 3 f_equal. lia.
Qed.
Lemma data_block n q ks vs : plain n -> (forall k, In k ks -> tagged n k = false) -> (forall k, In k vs -> tagged n k = true) ->
  list_data Ex (xm n) (MString false) (group q (ks ++ vs)) = Ret (map (fun k => PStr (strval k)) vs).
Proof.
  intros H Hk Hv. unfold list_data. rewrite matches_block by assumption. clear. generalize (length ks) as i. induction vs as [|v vs IH]; intros i; [reflexivity|]. cbn [enum map mapR item_in to_python read_str fst snd]. now rewrite IH.
Qed.
Lemma append_str n q ks vs v : plain n -> xml_valid v = true -> (forall k, In k ks -> tagged n k = false) -> (forall k, In k vs -> tagged n k = true) ->
  list_append Ex (xm n) (MString false) (PStr v) (group q (ks ++ vs)) = (group q (ks ++ vs ++ [elem n v]), Ret tt).
Proof.
  intros H Hx Hk Hv. unfold list_append. unfold bind at 1. unfold reading, list_len. rewrite data_block by assumption. cbn [rmap]. rewrite map_length.
  unfold list_setitem. unfold bind at 1. unfold reading. rewrite matches_block by assumption. rewrite map_length, enum_len, Z.eqb_refl. rewrite last_item_block.
  assert (B : forall ins, match ins with Some i => i = length (ks ++ vs) | None => True end ->
    bind (build Ex Create (xm n) (Some doc_root) ins) (fun r => match to_xml (MString false) (PStr v) with Ret s => set_in_xml Ex r s (terminal_step (xm n)) | Exc x => raise x end) (group q (ks ++ vs)) = (group q (ks ++ vs ++ [elem n v]), Ret tt)).
  { intros ins Hi. unfold bind. rewrite create_end by assumption. cbn [to_xml py_str]. unfold set_in_xml. rewrite get_last. cbn [kids_of]. unfold set_text_at. rewrite Hx, upd_last. now rewrite <- app_assoc. }
  destruct (rev vs) as [|k r] eqn:Er; [now apply B|]. cbn [item_pos rev app]. apply B. rewrite app_length. assert (length vs <> 0) by (intros H0; apply length_zero_iff_nil in H0; subst; discriminate). lia.
Qed.
Lemma extend_ok n q ks : forall ss vs, plain n -> (forall s, In s ss -> xml_valid s = true) -> (forall k, In k ks -> tagged n k = false) -> (forall k, In k vs -> tagged n k = true) ->
  extend n ss (group q (ks ++ vs)) = (group q (ks ++ vs ++ map (elem n) ss), Ret tt).
Proof.
  unfold extend, list_extend. induction ss as [|s ss IH]; intros vs H Hs Hk Hv; cbn [map iterM]; [now rewrite app_nil_r|].
  unfold bind. rewrite append_str by (auto; apply Hs; now left). rewrite IH; auto; [now rewrite <- app_assoc|intros; apply Hs; now right|].
  intros k Hin. apply in_app_or in Hin as [Hin|[<-|[]]]; [auto|apply tagged_elem].
Qed.
Lemma append_node_ok n q ks vs x : plain n -> (forall k, In k ks -> tagged n k = false) -> (forall k, In k vs -> tagged n k = true) ->
  append_node Ex (xm n) x (group q (ks ++ vs)) = (group q (ks ++ vs ++ [x]), Ret tt).
Proof.
  intros H Hk Hv. unfold append_node. unfold bind at 1. unfold reading. rewrite matches_block by assumption. rewrite last_item_block.
  assert (B : forall ins, match ins with Some i => i = length (ks ++ vs) | None => True end ->
    bind (build Ex Create (xm n) (Some doc_root) ins) (fun r => match r with Some (RElem a) => fun d => (upd_at a (fun _ => x) d, Ret tt) | _ => raise XUnmodelled end) (group q (ks ++ vs)) = (group q (ks ++ vs ++ [x]), Ret tt)).
  { intros ins Hi. unfold bind. rewrite create_end by assumption. rewrite upd_last. now rewrite <- app_assoc. }
  destruct (rev vs) as [|k r] eqn:Er; [now apply B|]. cbn [item_pos rev app]. apply B. rewrite app_length. assert (length vs <> 0) by (intros H0; apply length_zero_iff_nil in H0; subst; discriminate). lia.
Qed.
Lemma append_nodes_ok n q ks : forall xs vs, plain n -> (forall k, In k ks -> tagged n k = false) -> (forall k, In k vs -> tagged n k = true) -> (forall k, In k xs -> tagged n k = true) ->
  iterM (append_node Ex (xm n)) xs (group q (ks ++ vs)) = (group q (ks ++ vs ++ xs), Ret tt).
Proof.
  induction xs as [|x xs IH]; intros vs H Hk Hv Hx; cbn [iterM]; [now rewrite app_nil_r|]. unfold bind. rewrite append_node_ok by auto. rewrite IH; auto; [now rewrite <- app_assoc| |intros; apply Hx; now right].
  intros k Hin. apply in_app_or in Hin as [Hin|[<-|[]]]; auto. apply Hx. now left.
Qed.
Lemma header_ok h : xml_valid (fst h) = true -> xml_valid (snd h) = true -> new_header h = (group (xn "Header") [elem "Name" (fst h); elem "Value" (snd h)], Ret tt).
Proof.
  intros H1 H2. unfold new_header. unfold bind. change (Elem (xn "Header") [] None []) with (group (xn "Header") []). rewrite set_absent; [|reflexivity|assumption|intros ? []]. cbn [app].
  rewrite set_absent; [reflexivity|reflexivity|assumption|]. intros k [<-|[]]. vm_compute. reflexivity.
Qed.
Lemma headers_ok hs : (forall h, In h hs -> xml_valid (fst h) = true /\ xml_valid (snd h) = true) ->
  new_headers hs = Ret (map (fun h => group (xn "Header") [elem "Name" (fst h); elem "Value" (snd h)]) hs).
Proof. induction hs as [|h hs IH]; intros H; [reflexivity|]. cbn [new_headers map]. rewrite header_ok by (apply (H h); now left). now rewrite IH by (intros; apply H; now right). Qed.
Lemma with_created_ok n q ks (m : M unit) ks' : plain n -> (forall k, In k ks -> tagged n k = false) -> m (group (xn n) []) = (group (xn n) ks', Ret tt) ->
  with_created (xm n) m (group q ks) = (group q (ks ++ [group (xn n) ks']), Ret tt).
Proof.
  intros H Hk Hm. unfold with_created, mgr_create. unfold bind at 1 2. unfold reading, find_ast. rewrite eval_group by assumption. rewrite hits_none by assumption. cbn [first_match].
  rewrite create_end by auto. unfold within. rewrite get_last. change (Elem (xn n) [] None []) with (group (xn n) []). rewrite Hm, upd_last. reflexivity.
Qed.

(** a document in which only the names in [ns] occur *)
Definition named (ns : list string) (ks : list node) : Prop := forall k, In k ks -> exists n, In n ns /\ tagged n k = true.
Lemma tagged_name n n' k : tagged n k = true -> tagged n' k = true -> u n = u n'.
Proof. destruct k as [q ? ? ?|]; cbn; [|discriminate]. rewrite !qeqb_eq. intros -> H. injection H. auto. Qed.
Lemma named_absent ns ks n : named ns ks -> (forall n', In n' ns -> u n' <> u n) -> forall k, In k ks -> tagged n k = false.
Proof. intros H Hn k Hk. destruct (H k Hk) as (n' & H1 & H2). destruct (tagged n k) eqn:E; [|reflexivity]. exfalso. apply (Hn n' H1). now apply (tagged_name n' n k). Qed.
Lemma named_app ns ks n vs : named ns ks -> (forall k, In k vs -> tagged n k = true) -> named (n :: ns) (ks ++ vs).
Proof. intros H Hv k Hk. apply in_app_or in Hk as [Hk|Hk]; [destruct (H k Hk) as (n' & H1 & H2); exists n'; split; [now right|assumption]|]. exists n. split; [now left|auto]. Qed.
Lemma named_skip ns ks n : named ns ks -> named (n :: ns) ks.
Proof. intros H k Hk. destruct (H k Hk) as (n' & H1 & H2). exists n'. split; [now right|assumption]. Qed.

(** one step of the conversion: appends a block of elements called [n] *)
Definition adds (op : M unit) (q : qname) (n : string) (blk : list node) : Prop :=
  (forall k, In k blk -> tagged n k = true) /\ forall ks, (forall k, In k ks -> tagged n k = false) -> op (group q ks) = (group q (ks ++ blk), Ret tt).
Inductive all_add (q : qname) : list (M unit) -> list string -> list (list node) -> Prop :=
| aa_nil : all_add q [] [] []
| aa_cons op n blk ops ns blks : adds op q n blk -> all_add q ops ns blks -> all_add q (op :: ops) (n :: ns) (blk :: blks).
Fixpoint distinct (ns : list string) : bool := match ns with [] => true | n :: r => negb (str_mem (u n) (map u r)) && distinct r end.
Lemma run_all q ops ns blks : all_add q ops ns blks -> forall done ks, distinct ns = true -> named done ks -> (forall n, In n done -> ~ In (u n) (map u ns)) ->
  m_seq ops (group q ks) = (group q (ks ++ concat blks), Ret tt).
Proof.
  induction 1 as [|op n blk ops ns blks [A1 A2] _ IH]; intros done ks Hd Hn Hdis; unfold m_seq in *; cbn [iterM concat]; [now rewrite app_nil_r|].
  cbn [distinct] in Hd. apply andb_prop in Hd as [Hd1 Hd2]. unfold bind. rewrite A2; [|intros k Hk; eapply named_absent; [exact Hn| |exact Hk]; intros n' Hn' He; apply (Hdis n' Hn'); left; now symmetry].
  rewrite (IH (n :: done)); [now rewrite <- app_assoc|assumption|now apply named_app|]. intros n' [<-|Hn'] Hin; [|apply (Hdis n' Hn'); now right]. apply str_mem_In in Hin. rewrite Hin in Hd1. discriminate.
Qed.
Lemma adds_extend q n ss : plain n -> (forall s, In s ss -> xml_valid s = true) -> adds (extend n ss) q n (map (elem n) ss).
Proof.
  intros H Hs. split; [intros k Hk; apply in_map_iff in Hk as (s & <- & _); apply tagged_elem|]. intros ks Hk. rewrite <- (app_nil_r ks) at 1. now rewrite extend_ok by (auto; intros k []).
Qed.
Lemma adds_set q n v : plain n -> xml_valid v = true -> adds (mgr_set Ex (xm n) (Some v)) q n [elem n v].
Proof. intros H Hv. split; [intros k [<-|[]]; apply tagged_elem|]. intros ks Hk. now apply set_absent. Qed.
Lemma adds_set_opt q n o : plain n -> (forall v, o = Some v -> xml_valid v = true) -> adds (mgr_set Ex (xm n) o) q n (opt_elem n o).
Proof. intros H Hv. destruct o as [v|]; [apply adds_set; auto|]. split; [intros k []|]. intros ks Hk. cbn [opt_elem]. rewrite app_nil_r. now apply set_none. Qed.
Lemma adds_nothing q n : adds (ret tt) q n [].
Proof. split; [intros k []|]. intros ks _. now rewrite app_nil_r. Qed.
Lemma adds_append q n v : plain n -> xml_valid v = true -> adds (list_append Ex (xm n) (MString false) (PStr v)) q n [elem n v].
Proof. intros H Hv. split; [intros k [<-|[]]; apply tagged_elem|]. intros ks Hk. rewrite <- (app_nil_r ks) at 1. now rewrite append_str by (auto; intros k []). Qed.
Lemma adds_opt_append q n o : plain n -> (forall v, o = Some v -> xml_valid v = true) -> adds (opt_append n o) q n (opt_elem n (nonempty o)).
Proof. intros H Hv. destruct o as [[|c r]|]; cbn [opt_append nonempty opt_elem]; [apply adds_nothing|apply adds_append; auto|apply adds_nothing]. Qed.
Lemma get_all_valid n m : (forall h, In h (em_headers m) -> xml_valid (fst h) = true /\ xml_valid (snd h) = true) -> forall s, In s (get_all n m) -> xml_valid s = true.
Proof. intros H s Hs. unfold get_all in Hs. apply in_map_iff in Hs as (h & <- & Hh). apply filter_In in Hh as [Hh _]. now apply H. Qed.
Lemma get_first_valid n m : (forall h, In h (em_headers m) -> xml_valid (fst h) = true /\ xml_valid (snd h) = true) -> forall s, get_first n m = Some s -> xml_valid s = true.
Proof. intros H s Hs. apply (get_all_valid n m H). unfold get_first in Hs. destruct (get_all n m); [discriminate|]. injection Hs as ->. now left. Qed.
Definition supplied_path := EBin (xm "MessageId") (u "/") (EStep (Some (u "@")) (NameTest None (u "Supplied")) []).
Lemma adds_message_id q v : xml_valid v = true -> adds (bind (mgr_set Ex supplied_path (Some (u "1"))) (fun _ => mgr_set Ex (xm "MessageId") (Some v))) q "MessageId" [Elem (xn "MessageId") [(QN None (u "Supplied"), u "1")] (Some v) []].
Proof.
  intros Hv. split; [intros k [<-|[]]; vm_compute; reflexivity|]. intros ks Hk.
  assert (P : plain "MessageId") by reflexivity.
  assert (E1 : forall d, eval_at Ex supplied_path doc_root d = match eval_at Ex (xm "MessageId") doc_root d with Ret (XN l) => Ret (XN (flat_map (fun i => nodes_of (ev Ex (EStep (Some (u "@")) (NameTest None (u "Supplied")) []) i)) l)) | _ => Exc XUnmodelled end) by (intros d; reflexivity).
  assert (R : reread (xm "MessageId") = Some (xm "MessageId")) by (vm_compute; reflexivity).
  unfold mgr_set at 1. unfold bind at 1 2. unfold reading at 1. unfold find_ast. rewrite E1, eval_group by assumption. rewrite hits_none by assumption. cbn [flat_map first_match].
  set (n0 := Elem (xn "MessageId") [] None []).
  assert (B : build Ex Create supplied_path (Some doc_root) None (group q ks) = (group q (ks ++ [set_attr (QN None (u "Supplied")) [] n0]), Ret (Some (RAttr [length ks] (QN None (u "Supplied")))))).
  { unfold supplied_path. cbn [build]. change (str_eqb (u "/") (u "/")) with true. cbn iota. unfold bind at 1. unfold reading, find_node. rewrite R. unfold find_ast. rewrite eval_group by assumption. rewrite hits_none by assumption. cbn [first_match].
    unfold bind at 1. change (build Ex Create (xm "MessageId") (Some doc_root) None (group q ks)) with (build Ex Create (xm "MessageId") (Some doc_root) None (group q ks)). rewrite create_end by auto.
    change (child_axis (Some (u "@"))) with false. change (attr_axis (Some (u "@"))) with true. cbn iota. cbn [forallb]. unfold bind. unfold create_attr. change (name_valid (u "Supplied")) with true. cbn [negb]. rewrite upd_last. reflexivity. }
  unfold bind at 1. rewrite B. unfold set_in_xml at 1. change (is_text_nodetest (terminal_step supplied_path)) with false. cbn iota. change (terminal_step supplied_path) with (Some (EStep (Some (u "@")) (NameTest None (u "Supplied")) [])). unfold set_attr_at. change (name_valid (u "Supplied")) with true. cbn [negb].
  change (xml_valid (u "1")) with true. cbn iota. cbv beta. rewrite upd_last. cbv beta iota. change (attr_name Ex None (u "Supplied")) with (QN None (u "Supplied")).
  unfold mgr_set. unfold bind at 1. unfold reading, find_ast. rewrite eval_group by assumption. rewrite hits_app, hits_none by assumption. rewrite hits_all by (intros k [<-|[]]; vm_compute; reflexivity). cbn [enum map app first_match ref_of fst snd Nat.add].
  unfold bind, ret. unfold set_in_xml. rewrite get_last. cbn [kids_of set_attr n0]. unfold set_text_at. rewrite Hv, upd_last. reflexivity.
Qed.

(** ** C47 *)
Lemma convert_ok pd eol idt m : storable_email pd m -> xml_valid eol = true -> (forall s, idt = Some s -> xml_valid s = true) ->
  convert pd eol idt m (group (xn "Message") []) = (group (xn "Message") (message_kids pd eol idt m), Ret tt).
Proof.
  intros (Hh & Hd & Ht & Hc & Hf & Hp) He Hi. unfold convert.
  pose proof (fun n => get_all_valid n m Hh) as GA. pose proof (fun n => get_first_valid n m Hh) as GF.
  set (body := (match nonempty (get_first "Content-Type" m) with Some _ => [elem "ContentType" (em_type m)] | None => [] end) ++
         opt_elem "Charset" (nonempty (em_charset m)) ++ opt_elem "ContentName" (nonempty (em_filename m)) ++
         [group (xn "BodyContent") [elem "Content" (clean (em_payload m))]]).
  assert (Body : m_seq [
        match get_first "Content-Type" m with Some (_ :: _) => list_append Ex (xm "ContentType") (MString false) (PStr (em_type m)) | _ => ret tt end;
        opt_append "Charset" (em_charset m);
        opt_append "ContentName" (em_filename m);
        with_created (xm "BodyContent") (mgr_set Ex (xm "Content") (Some (clean (em_payload m))))] (group (xn "SingleBody") []) = (group (xn "SingleBody") body, Ret tt)).
  { rewrite (run_all (xn "SingleBody") _ ["ContentType"; "Charset"; "ContentName"; "BodyContent"]%string
       [(match nonempty (get_first "Content-Type" m) with Some _ => [elem "ContentType" (em_type m)] | None => [] end);
        opt_elem "Charset" (nonempty (em_charset m)); opt_elem "ContentName" (nonempty (em_filename m)); [group (xn "BodyContent") [elem "Content" (clean (em_payload m))]]]) with (done := []).
    - cbn [app concat]. reflexivity.
    - apply aa_cons; [destruct (get_first "Content-Type" m) as [[|c r]|]; cbn [nonempty]; [apply adds_nothing|apply adds_append; [reflexivity|assumption]|apply adds_nothing]|].
      apply aa_cons; [apply adds_opt_append; [reflexivity|assumption]|]. apply aa_cons; [apply adds_opt_append; [reflexivity|assumption]|]. apply aa_cons; [|apply aa_nil].
      split; [intros k [<-|[]]; vm_compute; reflexivity|]. intros ks Hk. apply with_created_ok; [reflexivity|assumption|]. rewrite set_absent; [reflexivity|reflexivity|assumption|intros k []].
    - vm_compute. reflexivity.
    - intros k [].
    - intros n []. }
  rewrite (run_all (xn "Message") _
     ["LocalId"; "MessageId"; "MimeVersion"; "OrigDate"; "From"; "Sender"; "To"; "Cc"; "Bcc"; "InReplyTo"; "References"; "Subject"; "Comments"; "Keywords"; "Header"; "SingleBody"; "Eol"]%string
     [opt_elem "LocalId" idt;
      match nonempty (get_first "Message-Id" m) with Some v => [Elem (xn "MessageId") [(QN None (u "Supplied"), u "1")] (Some v) []] | None => [] end;
      opt_elem "MimeVersion" (get_first "MIME-Version" m); map (elem "OrigDate") (map pd (get_all "Date" m)); map (elem "From") (get_all "From" m); map (elem "Sender") (get_all "From" m);
      map (elem "To") (get_all "To" m); map (elem "Cc") (get_all "Cc" m); map (elem "Bcc") (get_all "Bcc" m); map (elem "InReplyTo") (get_all "In-Reply-To" m); map (elem "References") (get_all "References" m);
      map (elem "Subject") (get_all "Subject" m); map (elem "Comments") (get_all "Comments" m); map (elem "Keywords") (get_all "Keywords" m);
      map (fun h => group (xn "Header") [elem "Name" (fst h); elem "Value" (snd h)]) (em_headers m);
      (if em_multipart m then [] else [group (xn "SingleBody") body]); [elem "Eol" eol]]) with (done := []).
  - unfold message_kids. cbn [app concat]. reflexivity.
  - apply aa_cons; [destruct idt; [apply adds_set; auto; reflexivity|apply adds_nothing]|].
    apply aa_cons; [destruct (get_first "Message-Id" m) as [[|c r]|] eqn:Em; cbn [nonempty]; [apply adds_nothing|apply adds_message_id; now apply (GF "Message-Id"%string)|apply adds_nothing]|].
    apply aa_cons; [apply adds_set_opt; [reflexivity|exact (GF "MIME-Version"%string)]|].
    apply aa_cons; [apply adds_extend; [reflexivity|]; intros s Hs; apply in_map_iff in Hs as (x & <- & Hx); auto|].
    do 10 (apply aa_cons; [apply adds_extend; [reflexivity|apply GA]|]).
    apply aa_cons; [|apply aa_cons; [|apply aa_cons; [apply adds_set; [reflexivity|assumption]|apply aa_nil]]].
    + rewrite (headers_ok _ Hh). split; [intros k Hk; apply in_map_iff in Hk as (h & <- & _); vm_compute; reflexivity|]. intros ks Hk. rewrite <- (app_nil_r ks) at 1.
      rewrite append_nodes_ok; [reflexivity|reflexivity|assumption|intros k []|]. intros k Hx. apply in_map_iff in Hx as (h & <- & _). vm_compute. reflexivity.
    + destruct (em_multipart m); [apply adds_nothing|]. split; [intros k [<-|[]]; vm_compute; reflexivity|]. intros ks Hk. apply with_created_ok; [reflexivity|assumption|exact Body].
  - vm_compute. reflexivity.
  - intros k [].
  - intros n [].
Qed.
(** The conversion succeeds for every message whose strings XML can hold, and gives exactly this document. *)
Theorem C47_document : forall parse_date eol local_id m, storable_email parse_date m -> xml_valid eol = true ->
  from_email parse_date eol local_id m =
  (group (xn "Message") (message_kids parse_date eol (match local_id with Some _ => Some (u "<built-in function id>") | None => None end) m), Ret tt).
Proof.
  intros pd eol lid m Hs He. unfold from_email. change (Elem (xn "Message") [] None []) with (group (xn "Message") []). apply convert_ok; auto.
  intros s Hs'. destruct lid; [|discriminate]. injection Hs' as <-. vm_compute. reflexivity.
Qed.
(** reading a list or a sub-object of such a document *)
Lemma data_of n q ks : plain n -> list_data Ex (xm n) (MString false) (group q ks) = Ret (map (fun k => PStr (strval k)) (filter (tagged n) ks)).
Proof.
  intros H. unfold list_data, matches. rewrite eval_group by assumption. generalize 0 as i. induction ks as [|k ks IH]; intros i; [reflexivity|].
  unfold hits in *. cbn [enum flat_map filter fst snd]. destruct (tagged n k); [|apply IH]. cbn [app mapR map item_in to_python read_str]. now rewrite IH.
Qed.
Lemma filter_same n vs : filter (tagged n) (map (elem n) vs) = map (elem n) vs.
Proof. induction vs as [|v vs IH]; [reflexivity|]. cbn [map filter]. now rewrite tagged_elem, IH. Qed.
Lemma filter_other {A} n (f : A -> node) (vs : list A) : (forall v, tagged n (f v) = false) -> filter (tagged n) (map f vs) = [].
Proof. intros H. induction vs as [|v vs IH]; [reflexivity|]. cbn [map filter]. now rewrite H, IH. Qed.
Lemma filter_opt n n' o : tagged n (elem n' []) = false -> filter (tagged n) (opt_elem n' o) = [].
Proof. intros H. destruct o; [|reflexivity]. cbn [opt_elem filter]. change (tagged n (elem n' s)) with (tagged n (elem n' [])). now rewrite H. Qed.
Ltac drop := repeat (rewrite filter_opt by (vm_compute; reflexivity)); repeat (rewrite filter_other by (intros; vm_compute; reflexivity)).
Lemma text_values n (vs : list str) : map (fun k => PStr (strval k)) (map (elem n) vs) = map PStr vs.
Proof. rewrite map_map. apply map_ext. intros v. cbn. now rewrite app_nil_r. Qed.
Lemma list_of_kids n pd eol idt m vs : plain n -> filter (tagged n) (message_kids pd eol idt m) = map (elem n) vs ->
  list_data Ex (xm n) (MString false) (group (xn "Message") (message_kids pd eol idt m)) = Ret (map PStr vs).
Proof. intros H Hf. rewrite data_of by assumption. rewrite Hf. now rewrite text_values. Qed.
Lemma filter_if n (b : bool) (x y : list node) : filter (tagged n) (if b then x else y) = if b then filter (tagged n) x else filter (tagged n) y. Proof. now destruct b. Qed.
Lemma filter_msgid n (o : option str) (f : str -> node) : (forall v, tagged n (f v) = false) -> filter (tagged n) (match o with Some v => [f v] | None => [] end) = [].
Proof. intros H. destruct o; [|reflexivity]. cbn [filter]. now rewrite H. Qed.
Lemma filter_one n k : filter (tagged n) [k] = if tagged n k then [k] else []. Proof. reflexivity. Qed.
Lemma if_same {A} (b : bool) (x : A) : (if b then x else x) = x. Proof. now destruct b. Qed.
Ltac block := intros; unfold message_kids; repeat rewrite filter_app; rewrite filter_if; repeat rewrite filter_one; cbn [filter];
  repeat (rewrite filter_msgid by (intros; vm_compute; reflexivity)); rewrite ?filter_same; drop;
  repeat match goal with |- context [tagged ?a ?k] => let v := eval vm_compute in (tagged a k) in change (tagged a k) with v end; cbn iota; rewrite ?if_same, ?app_nil_r; cbn [app]; reflexivity.

Definition list_field_of (n : string) (d : node) : res (list pyval) := list_data Ex (xm n) (MString false) d.
Theorem C47_lists_partial : forall parse_date eol local_id m d r, storable_email parse_date m -> xml_valid eol = true -> from_email parse_date eol local_id m = (d, r) ->
  r = Ret tt /\
  list_field_of "From" d = Ret (map PStr (get_all "From" m)) /\ list_field_of "To" d = Ret (map PStr (get_all "To" m)) /\
  list_field_of "Cc" d = Ret (map PStr (get_all "Cc" m)) /\ list_field_of "Bcc" d = Ret (map PStr (get_all "Bcc" m)) /\
  list_field_of "InReplyTo" d = Ret (map PStr (get_all "In-Reply-To" m)) /\ list_field_of "References" d = Ret (map PStr (get_all "References" m)) /\
  list_field_of "Subject" d = Ret (map PStr (get_all "Subject" m)) /\ list_field_of "Comments" d = Ret (map PStr (get_all "Comments" m)) /\
  list_field_of "Keywords" d = Ret (map PStr (get_all "Keywords" m)) /\ list_field_of "OrigDate" d = Ret (map PStr (map parse_date (get_all "Date" m))).
Proof.
  intros pd eol lid m d r Hs He Hr. rewrite C47_document in Hr by assumption. injection Hr as <- <-. split; [reflexivity|]. unfold list_field_of.
  repeat match goal with |- _ /\ _ => split end; (apply list_of_kids; [reflexivity|block]).
Qed.
(** every header, in order, with its name and value *)
Definition kid_nodes (n : string) (d : node) : list node := match matches Ex (xm n) d with Ret l => flat_map (fun i => match i with IElem _ k => [k] | _ => [] end) l | Exc _ => [] end.
Lemma kid_nodes_group n q ks : plain n -> kid_nodes n (group q ks) = filter (tagged n) ks.
Proof.
  intros H. unfold kid_nodes, matches. rewrite eval_group by assumption. generalize 0 as i. induction ks as [|k ks IH]; intros i; [reflexivity|].
  unfold hits in *. cbn [enum flat_map filter fst snd]. destruct (tagged n k); [|apply IH]. cbn [app flat_map]. now rewrite IH.
Qed.
Lemma get_elem n q ks v : plain n -> filter (tagged n) ks = [elem n v] -> get_string Ex (xm n) (group q ks) = Ret (Some v).
Proof.
  intros H Hf. unfold get_string. rewrite eval_group by assumption. assert (G : forall i, exists j, hits n i ks = [IElem [j] (elem n v)]).
  { clear H. induction ks as [|k ks IH]; intros i; [discriminate|]. cbn [filter] in Hf. unfold hits in *. cbn [enum flat_map fst snd]. destruct (tagged n k) eqn:E; [|now apply IH].
    injection Hf as -> Hf. exists i. cbn [app]. f_equal. apply (hits_none n ks (S i)). intros k Hk. destruct (tagged n k) eqn:Ek; [|reflexivity]. exfalso. assert (In k (filter (tagged n) ks)) by now apply filter_In. rewrite Hf in H. destruct H. }
  destruct (G 0) as [j ->]. cbn [item_str]. unfold elem. cbn [strval ostr flat_map]. now rewrite app_nil_r.
Qed.
(** which headers [get_all] takes: those with the name in any case, in order *)
Definition same_letter (x y : N) : Prop := x = y \/ (65 <= x <= 90 /\ y = x + 32)%N \/ (65 <= y <= 90 /\ x = y + 32)%N.
Inductive picks (n : str) : list (str * str) -> list str -> Prop :=
| PkNil : picks n [] []
| PkTake a v hs vs : Forall2 same_letter n a -> picks n hs vs -> picks n ((a, v) :: hs) (v :: vs)
| PkSkip a v hs vs : ~ Forall2 same_letter n a -> picks n hs vs -> picks n ((a, v) :: hs) vs.
Lemma lower_same x y : lower x = lower y <-> same_letter x y.
Proof.
  unfold lower, same_letter, in_range. destruct (N.leb_spec 65 x), (N.leb_spec x 90), (N.leb_spec 65 y), (N.leb_spec y 90); cbn [andb]; lia.
Qed.
Lemma map_lower a : forall b, map lower a = map lower b <-> Forall2 same_letter a b.
Proof.
  induction a as [|x a IH]; intros [|y b]; split; intros H; try (inversion H; fail); try constructor; try reflexivity.
  - injection H as H _. now apply lower_same.
  - injection H as _ H. now apply IH.
  - inversion H; subst. cbn. f_equal; [now apply lower_same|now apply IH].
Qed.
Theorem C47_header_case : forall n m, picks (u n) (em_headers m) (get_all n m).
Proof.
  intros n m. unfold get_all. induction (em_headers m) as [|[a v] hs IH]; [constructor|]. cbn [filter]. destruct (same_name (u n) (fst (a, v))) eqn:E; cbn [fst] in E; unfold same_name in E.
  - apply str_eqb_eq in E. cbn [map snd]. constructor; [now apply map_lower|exact IH].
  - constructor; [|exact IH]. intros H. apply map_lower in H. rewrite H, str_eqb_refl in E. discriminate.
Qed.
Example C47_header_case_example : picks (u "Message-Id") [(u "message-ID", u "1"); (u "To", u "2"); (u "MESSAGE-ID", u "3")] [u "1"; u "3"].
Proof. exact (C47_header_case "Message-Id" (mkEmail [(u "message-ID", u "1"); (u "To", u "2"); (u "MESSAGE-ID", u "3")] false [] None None [])). Qed.
Theorem C47_headers : forall parse_date eol local_id m d r, storable_email parse_date m -> xml_valid eol = true -> from_email parse_date eol local_id m = (d, r) ->
  map (fun k => (get_string Ex (xm "Name") k, get_string Ex (xm "Value") k)) (kid_nodes "Header" d) = map (fun h => (Ret (Some (fst h)), Ret (Some (snd h)))) (em_headers m).
Proof.
  intros pd eol lid m d r Hs He Hr. rewrite C47_document in Hr by assumption. injection Hr as <- <-. rewrite kid_nodes_group by reflexivity.
  set (H := fun h : str * str => group (xn "Header") [elem "Name" (fst h); elem "Value" (snd h)]).
  assert (F : forall idt, filter (tagged "Header") (message_kids pd eol idt m) = map H (em_headers m)).
  { assert (S : forall l, filter (tagged "Header") (map H l) = map H l). { induction l as [|h l IH]; [reflexivity|]. cbn [map filter]. change (tagged "Header" (H h)) with true. cbn iota. now rewrite IH. }
    intros idt. unfold message_kids. fold H. repeat rewrite filter_app. rewrite S, filter_if. repeat rewrite filter_one. cbn [filter]. repeat (rewrite filter_msgid by (intros; vm_compute; reflexivity)). drop.
    repeat match goal with |- context [tagged ?a ?k] => let v := eval vm_compute in (tagged a k) in change (tagged a k) with v end. cbn iota. rewrite ?if_same, ?app_nil_r. cbn [app]. reflexivity. }
  rewrite F, map_map. apply map_ext. intros h. unfold H. f_equal; (apply get_elem; [reflexivity|]); cbn [filter];
    repeat match goal with |- context [tagged ?a ?k] => let v := eval vm_compute in (tagged a k) in change (tagged a k) with v end; reflexivity.
Qed.
(** scalar fields *)
Theorem C47_scalars : forall parse_date eol m d r, storable_email parse_date m -> xml_valid eol = true -> from_email parse_date eol None m = (d, r) ->
  (forall v, get_first "Message-Id" m = Some v -> v <> [] -> get_string Ex (xm "MessageId") d = Ret (Some v) /\ get_string Ex supplied_path d = Ret (Some (u "1"))) /\
  (get_first "Message-Id" m = None -> get_string Ex (xm "MessageId") d = Ret None) /\
  get_string Ex (xm "MimeVersion") d = Ret (get_first "MIME-Version" m) /\
  get_string Ex (xm "LocalId") d = Ret None /\ get_string Ex (xm "Eol") d = Ret (Some eol).
Proof.
  intros pd eol m d r Hs He Hr. rewrite C47_document in Hr by assumption. injection Hr as <- <-.
  assert (NONE : forall n ks q, plain n -> filter (tagged n) ks = [] -> get_string Ex (xm n) (group q ks) = Ret None).
  { intros n ks q H Hf. unfold get_string. rewrite eval_group, hits_none; auto. intros k Hk. destruct (tagged n k) eqn:E; [|reflexivity]. exfalso. assert (In k (filter (tagged n) ks)) by now apply filter_In. now rewrite Hf in H0. }
  split; [|split; [|split; [|split]]].
  - intros v Hv Hn. set (x := Elem (xn "MessageId") [(QN None (u "Supplied"), u "1")] (Some v) []).
    assert (Ev : eval_at Ex (xm "MessageId") doc_root (group (xn "Message") (message_kids pd eol None m)) = Ret (XN [IElem [0] x])).
    { rewrite eval_group by reflexivity. unfold message_kids. rewrite Hv. destruct v as [|c v]; [contradiction|]. cbn [nonempty opt_elem app]. fold x. unfold hits. cbn [enum flat_map fst snd]. change (tagged "MessageId" x) with true. cbn iota. cbn [app]. do 3 f_equal.
      apply (hits_none "MessageId" _ 1). intros k Hk. repeat (apply in_app_or in Hk as [Hk|Hk]; [first [apply in_map_iff in Hk as (y & <- & _); vm_compute; reflexivity|destruct (get_first "MIME-Version" m); [destruct Hk as [<-|[]]; vm_compute; reflexivity|destruct Hk]|destruct (em_multipart m); [destruct Hk|destruct Hk as [<-|[]]; vm_compute; reflexivity]]|]). destruct Hk as [<-|[]]. vm_compute. reflexivity. }
    split; [unfold get_string; rewrite Ev; cbn [item_str x]; unfold x; cbn [strval ostr flat_map]; now rewrite app_nil_r|].
    assert (E1 : forall d, eval_at Ex supplied_path doc_root d = match eval_at Ex (xm "MessageId") doc_root d with Ret (XN l) => Ret (XN (flat_map (fun i => nodes_of (ev Ex (EStep (Some (u "@")) (NameTest None (u "Supplied")) []) i)) l)) | _ => Exc XUnmodelled end) by (intros d; reflexivity).
    unfold get_string. rewrite E1, Ev. vm_compute. reflexivity.
  - intros Hn. apply NONE; [reflexivity|]. unfold message_kids. rewrite Hn. cbn [nonempty opt_elem app]. repeat rewrite filter_app. rewrite filter_if. repeat rewrite filter_one. cbn [filter]. drop.
    repeat match goal with |- context [tagged ?a ?k] => let v := eval vm_compute in (tagged a k) in change (tagged a k) with v end. cbn iota. rewrite ?if_same. reflexivity.
  - assert (F : filter (tagged "MimeVersion") (message_kids pd eol None m) = opt_elem "MimeVersion" (get_first "MIME-Version" m)).
    { assert (S : filter (tagged "MimeVersion") (opt_elem "MimeVersion" (get_first "MIME-Version" m)) = opt_elem "MimeVersion" (get_first "MIME-Version" m)). { destruct (get_first "MIME-Version" m); [|reflexivity]. cbn [opt_elem filter]. now rewrite tagged_elem. }
      unfold message_kids. repeat rewrite filter_app. rewrite S, filter_if. repeat rewrite filter_one. cbn [filter opt_elem]. repeat (rewrite filter_msgid by (intros; vm_compute; reflexivity)). drop.
      repeat match goal with |- context [tagged ?a ?k] => let v := eval vm_compute in (tagged a k) in change (tagged a k) with v end. cbn iota. rewrite ?if_same, ?app_nil_r. cbn [app]. reflexivity. }
    destruct (get_first "MIME-Version" m) as [v|] eqn:E; cbn [opt_elem] in F; [now apply get_elem|now apply NONE].
  - apply NONE; [reflexivity|]. unfold message_kids. change (opt_elem "LocalId" None) with (@nil node). cbn [app]. repeat rewrite filter_app. rewrite filter_if. repeat rewrite filter_one. cbn [filter].
    repeat (rewrite filter_msgid by (intros; vm_compute; reflexivity)). drop.
    repeat match goal with |- context [tagged ?a ?k] => let v := eval vm_compute in (tagged a k) in change (tagged a k) with v end. cbn iota. rewrite ?if_same. reflexivity.
  - apply get_elem; [reflexivity|]. unfold message_kids. repeat rewrite filter_app. rewrite filter_if. repeat rewrite filter_one. cbn [filter opt_elem]. repeat (rewrite filter_msgid by (intros; vm_compute; reflexivity)). drop.
    repeat match goal with |- context [tagged ?a ?k] => let v := eval vm_compute in (tagged a k) in change (tagged a k) with v end. cbn iota. rewrite ?if_same. reflexivity.
Qed.

(** *** where it fails *)
(** the id given is never stored, and reading local_id gives None *)
Theorem C47_local_id_refuted : forall parse_date eol id m d r, storable_email parse_date m -> xml_valid eol = true -> from_email parse_date eol (Some id) m = (d, r) ->
  get_string Ex (xm "LocalId") d = Ret (Some (u "<built-in function id>")) /\ field_get Ex (xm "LocalId") MInt d = Ret PNone.
Proof.
  intros pd eol lid m d r Hs He Hr. rewrite C47_document in Hr by assumption. injection Hr as <- <-.
  assert (Ev : eval_at Ex (xm "LocalId") doc_root (group (xn "Message") (message_kids pd eol (Some (u "<built-in function id>")) m)) = Ret (XN [IElem [0] (elem "LocalId" (u "<built-in function id>"))])).
  { rewrite eval_group by reflexivity. unfold message_kids. cbn [opt_elem app]. unfold hits. cbn [enum flat_map fst snd]. rewrite tagged_elem. cbn [app]. do 3 f_equal. apply (hits_none "LocalId" _ 1). intros k Hk.
    apply in_app_or in Hk as [Hk|Hk]; [destruct (nonempty _); [destruct Hk as [<-|[]]; vm_compute; reflexivity|destruct Hk]|].
    repeat (apply in_app_or in Hk as [Hk|Hk]; [first [apply in_map_iff in Hk as (y & <- & _); vm_compute; reflexivity|destruct (get_first "MIME-Version" m); [destruct Hk as [<-|[]]; vm_compute; reflexivity|destruct Hk]|destruct (em_multipart m); [destruct Hk|destruct Hk as [<-|[]]; vm_compute; reflexivity]]|]). destruct Hk as [<-|[]]. vm_compute. reflexivity. }
  split; [unfold get_string; rewrite Ev; reflexivity|]. unfold field_get. rewrite Ev. vm_compute. reflexivity.
Qed.
(** the Sender list holds the From headers *)
Theorem C47_sender_refuted : forall parse_date eol local_id m d r, storable_email parse_date m -> xml_valid eol = true -> from_email parse_date eol local_id m = (d, r) ->
  list_field_of "Sender" d = Ret (map PStr (get_all "From" m)).
Proof. intros pd eol lid m d r Hs He Hr. rewrite C47_document in Hr by assumption. injection Hr as <- <-. unfold list_field_of. apply list_of_kids; [reflexivity|block]. Qed.

(** ** the payload, as stored *)
Definition sub (n : string) (d : node) : option node := hd_error (kid_nodes n d).
Theorem C46_stored_partial : forall parse_date eol local_id m d r, storable_email parse_date m -> xml_valid eol = true -> em_multipart m = false -> from_email parse_date eol local_id m = (d, r) ->
  exists body content, sub "SingleBody" d = Some body /\ sub "BodyContent" body = Some content /\ get_string Ex (xm "Content") content = Ret (Some (clean (em_payload m))).
Proof.
  intros pd eol lid m d r Hs He Hm Hr. rewrite C47_document in Hr by assumption. injection Hr as <- <-. unfold sub. rewrite kid_nodes_group by reflexivity.
  unfold message_kids. rewrite Hm. repeat rewrite filter_app. repeat rewrite filter_one. repeat (rewrite filter_msgid by (intros; vm_compute; reflexivity)). drop.
  match goal with |- context [tagged "SingleBody" (elem "Eol" eol)] => change (tagged "SingleBody" (elem "Eol" eol)) with false end.
  match goal with |- context [tagged "SingleBody" (group (xn "SingleBody") ?k)] => change (tagged "SingleBody" (group (xn "SingleBody") k)) with true end. cbn iota. cbn [app hd_error].
  eexists. eexists. split; [reflexivity|]. rewrite kid_nodes_group by reflexivity. repeat rewrite filter_app. rewrite filter_msgid by (intros; vm_compute; reflexivity). drop. rewrite filter_one.
  match goal with |- context [tagged "BodyContent" (group (xn "BodyContent") ?k)] => change (tagged "BodyContent" (group (xn "BodyContent") k)) with true end. cbn iota. cbn [app hd_error]. split; [reflexivity|].
  apply get_elem; [reflexivity|]. rewrite filter_one. now rewrite tagged_elem.
Qed.

(** ** Concrete cases *)
Definition ex_mail : email := mkEmail [(u "from", u "a@x"); (u "To", u "b@y"); (u "Sender", u "c@z"); (u "TO", u "d@y"); (u "Message-ID", u "<1>"); (u "Content-Type", u "text/plain")]
  false (u "text/plain") (Some (u "utf-8")) None ([72; 0; 105; 9; 31; 10] : str)%N.
Example C47_case : storable_email (fun s => s) ex_mail /\ xml_valid (u "LF") = true /\ get_all "To" ex_mail = [u "b@y"; u "d@y"] /\ em_multipart ex_mail = false /\
  list_field_of "To" (fst (from_email (fun s => s) (u "LF") None ex_mail)) = Ret [PStr (u "b@y"); PStr (u "d@y")] /\
  list_field_of "Sender" (fst (from_email (fun s => s) (u "LF") None ex_mail)) = Ret [PStr (u "a@x")].
Proof.
  split; [|repeat match goal with |- _ /\ _ => split end; vm_compute; reflexivity].
  split; [|split; [|repeat match goal with |- _ /\ _ => split end]].
  - intros h Hh. cbn [ex_mail em_headers In] in Hh. repeat (destruct Hh as [<-|Hh]; [vm_compute; auto|]). destruct Hh.
  - intros s []. 
  - vm_compute. reflexivity.
  - intros s [= <-]. vm_compute. reflexivity.
  - intros s [=].
  - vm_compute. reflexivity.
Qed.
Example C47_paths : parse (u "xm:LocalId") = Ok (xm "LocalId") /\ parse (u "xm:From") = Ok (xm "From") /\ parse (u "xm:MessageId/@Supplied") = Ok supplied_path.
Proof. repeat match goal with |- _ /\ _ => split end; vm_compute; reflexivity. Qed.
Example C46_case : clean (em_payload ex_mail) = [72; 105; 9; 10]%N. Proof. reflexivity. Qed.
(** U+FFFE is neither removed nor storable: the conversion raises ValueError *)
Theorem C46_noncharacter_refuted : exists m, (forall c, In c (em_payload m) -> ~ bad_control c) /\ snd (from_email (fun s => s) (u "LF") None m) = Exc XValue.
Proof. exists (mkEmail [] false [] None None [65534%N]). split; [|vm_compute; reflexivity]. intros c [<-|[]]. unfold bad_control. lia. Qed.
(** header values are not cleaned: one control character and the conversion raises *)
Theorem C47_header_control_refuted : exists m, em_payload m = [] /\ get_all "Subject" m = [[65; 1]%N] /\ snd (from_email (fun s => s) (u "LF") None m) = Exc XValue.
Proof. exists (mkEmail [(u "Subject", [65; 1]%N)] false [] None None []). repeat match goal with |- _ /\ _ => split end; vm_compute; reflexivity. Qed.
Print Assumptions C46_clean.
Print Assumptions C46_stored_partial.
Print Assumptions C47_document.
Print Assumptions C47_lists_partial.
Print Assumptions C47_headers.
Print Assumptions C47_header_case.
Print Assumptions C47_scalars.
