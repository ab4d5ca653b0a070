(** Schemas and documents for the examples and refutations of PropsJson. *)
From stdpp Require Import strings list gmap.
From Coq Require Import Ascii ZArith Floats.SpecFloat.
From Verif Require Import GoStr Val Conv Schema Inst Load SpecPath SpecLoad SpecConv SpecGen SpecNamed WalkL Gen GenP World Cases CaseGen CaseNamed Avro GoSrc SpecAvro SpecGo CaseGo GoJson SpecJson.

Definition num0 (f : spec_float) : string := match f with S754_zero _ => "0" | _ => "1.5" end.
Definition fold0 (s : string) : string := s.
(** the JSON type of the struct Root of a text *)
Definition root_type (text : string) : option jt :=
  match parse_go text with Some f => json_type no_unquote 20 f (RIdent "Root") | None => None end.
(** a document read into the struct of a text, and written again *)
Definition read_into (text : string) (d : json) : option gv := match root_type text with Some y => unmarshal W0 fold0 y d | None => None end.
Definition through (text : string) (d : json) : option json :=
  match root_type text with Some y => match unmarshal W0 fold0 y d with Some v => marshal W0 num0 y v | None => None end | None => None end.
(** documents of the schemas *)
Definition gen_doc : list (string * json) :=
  [("pets", JArr [JObj [("id", JNum "3"); ("age", JNum "1.5")]; JObj [("id", JNum "0")]]); ("name", JStr "Ann"); ("born", JNull); ("other", JNum "7"); ("more", JObj [("b", JStr "x"); ("a", JStr "")])].
Definition named_doc : list (string * json) :=
  [("born", JStr "2020-01-01T00:00:00Z"); ("name", JStr ""); ("pets", JArr [JObj [("id", JNum "3"); ("home", JObj [("street", JStr "")])]]); ("more", JObj [])].
Definition open_schema : instance := schema_of [("open", typed "boolean" []); ("count", typed "integer" []); ("tags", arr_schema (typed "string" []) [])] [].
Definition born_schema : instance := schema_of [("born", typed "string" [("format", jstr "date-time")])] [].
Definition more_schema : instance := schema_of [("more", obj_of [] [])] [].
Definition count_schema : instance := schema_of [("count", typed "integer" [])] [].
Definition tags_schema : instance := schema_of [("tags", arr_schema (types_schema ["string"; "null"] []) [])] [].
Definition id_schema : instance := schema_of [("_id", typed "string" [])] ["_id"].
Definition name_schema : instance := schema_of [("name", typed "string" [])] ["name"].
Ltac in_cases := repeat match goal with
  | H : _ ∈ [] |- _ => by apply elem_of_nil in H
  | H : ?x ∈ _ :: _ |- _ => apply elem_of_cons in H as [H|H]
  end.
Lemma all_of reqs ps kvs : NoDup kvs.*1 -> forallb (fun k => negb (bool_decide (k ∈ reqs)) || bool_decide (k ∈ kvs.*1)) ps.*1 = true ->
  Forall (fun kr : string * tree => forall d, (kr.1, d) ∈ kvs -> fits W0 fold0 kr.2 d) ps ->
  forallb (fun k => forallb (fun k' => negb (bool_decide (fold_name fold0 k = fold_name fold0 k')) || bool_decide (k = k')) kvs.*1) ps.*1 = true -> fits_members W0 fold0 reqs ps kvs.
Proof.
  intros H1 H2 H3 H4. constructor; [done|..].
  - intros k Hk Hr. rewrite forallb_forall in H2. specialize (H2 k (proj1 (elem_of_list_In _ _) Hk)). rewrite (bool_decide_eq_true_2 (k ∈ reqs)) in H2 by done. by apply bool_decide_eq_true in H2.
  - intros k r d Hk Hd. rewrite Forall_forall in H3. exact (H3 (k, r) Hk d Hd).
  - intros k k' Hk Hk' E. rewrite forallb_forall in H4. specialize (H4 k (proj1 (elem_of_list_In _ _) Hk)). rewrite forallb_forall in H4. specialize (H4 k' (proj1 (elem_of_list_In _ _) Hk')).
    rewrite (bool_decide_eq_true_2 (fold_name fold0 k = fold_name fold0 k')) in H4 by done. by apply bool_decide_eq_true in H4.
Qed.
Ltac members := unfold gen_doc, named_doc, gen_props, named_props, pet_props, pet; apply all_of; [nodup|vm_compute; reflexivity| |vm_compute; reflexivity];
  repeat (apply Forall_cons_2; [cbn [fst snd]; intros d Hd; in_cases; try discriminate; injection Hd as Hd; subst d|]); try apply Forall_nil_2.
Ltac one_of r := first
  [ refine (fits_null _ _ r (inst_of r) _ _); vm_compute; reflexivity
  | refine (fits_bool _ _ r (inst_of r) _ _ _); [vm_compute; reflexivity|onet]
  | refine (fits_num _ _ r (inst_of r) _ _ _ _ _); [vm_compute; reflexivity|onet|vm_compute; reflexivity]
  | refine (fits_int _ _ r (inst_of r) _ _ _ _ _); [vm_compute; reflexivity|onet|vm_compute; reflexivity]
  | refine (fits_str _ _ r (inst_of r) _ _ _ _); [vm_compute; reflexivity|onet|vm_compute; discriminate]
  | refine (fits_time _ _ r (inst_of r) _ _ _ _ _); [vm_compute; reflexivity|split; [onet|vm_compute; reflexivity]|vm_compute; reflexivity] ].
Ltac scalar := match goal with |- fits _ _ ?r _ => one_of r end.
Ltac items x := match goal with |- fits _ _ ?r _ =>
  refine (fits_arr _ _ r (inst_of r) x _ _ _ _ _); [vm_compute; reflexivity|onet|vm_compute; reflexivity|]; intros d Hd; in_cases; subst d; (split; [|done]) end.
Lemma not_leaf r : match d_inst false r with Ok i => bool_decide ("graphql-hydration" ∈ types i) | _ => false end = false -> ~ graphql_leaf r.
Proof. intros H (i & Hi & Hh & _). rewrite Hi in H. by apply bool_decide_eq_false in H. Qed.
Ltac not_free := let H := fresh in intros H; exfalso; unfold free_form in H; apply Forall_cons in H as [H _]; revert H; apply not_leaf; vm_compute; reflexivity.
Ltac object ps := match goal with |- fits _ _ ?r _ =>
  refine (fits_obj _ _ r (inst_of r) ps _ _ _ _ _ _); [vm_compute; reflexivity|onet|vm_compute; reflexivity|members|] end.
Lemma gen_fits : fits_members W0 fold0 ["name"] gen_props gen_doc.
Proof.
  members; [scalar|scalar| |].
  - items (obj_of pet_props ["id"]).
    + object pet_props; [scalar|scalar|not_free].
    + object pet_props; [scalar|not_free].
  - object (@nil (string * tree)). intros _. repeat constructor; by eexists.
Qed.
Lemma named_fits : fits_members W0 fold0 named_req named_props named_doc.
Proof.
  members; [scalar|scalar| |].
  - items pet_schema. object pet; [scalar| |not_free]. object [("street", typed "string" [])]; [scalar|not_free].
  - object (@nil (string * tree)). intros _. constructor.
Qed.
