(** Schemas for the examples and refutations of PropsGql. *)
From stdpp Require Import strings list gmap.
From Coq Require Import Ascii ZArith.
From Verif Require Import GoStr GoStrL Val Conv Schema Inst Load SpecPath SpecLoad SpecConv SpecWalk SpecGen SpecNamed SpecGql WalkL Gen GenP Avro Gql World Cases CaseGen CaseNamed GqlC SpecDoc.

(** ** what a schema declares can be computed *)
Section find.
Context (title : string -> string) (rename types_map : string -> option string) (pointers : bool) (trim : string -> string).
Notation qholds := (qholds title rename types_map pointers trim).
Notation qdeclares := (qdeclares title rename types_map pointers trim).
Notation qdeclares_all := (qdeclares_all title rename types_map pointers trim).
Definition the_type (i : instance) : option string :=
  match filter (fun x => x <> "null") (types i) with [t] => if decide (t = "") then None else Some t | _ => None end.
Definition good_name (k : string) : bool := bool_decide (str_in "." k = false) && bool_decide (str_in "[" k = false) && bool_decide (k <> "") && bool_decide (k <> "$").
Definition find_holds (all : string -> string -> bool -> list string -> list (string * tree) -> option (list qdecl * list qstruct))
    (P G : string) (dead : bool) (k target : string) (null : bool) (i : instance) : option (qtype * list qstruct) :=
  match the_type i with
  | None => None
  | Some t =>
    if decide (t = "object") then
      match n_props i with
      | None => None
      | Some [] => Some (QName (if decide (target = "") then "Any" else target) NNever, [QStruct (P +:+ title k) (sub_type title types_map G k) (n_desc i) true (n_required i) []])
      | Some ps =>
        match all (P +:+ title k) (sub_type title types_map G k) (dead || bool_decide (n_target i <> "")) (n_required i) ps with
        | None => None
        | Some (ds, Ss) =>
          if bool_decide (sub_type title types_map G k ∉ reserved) && bool_decide (NoDup ps.*1) && bool_decide (NoDup (map qd_json ds)) && bool_decide (NoDup (map qd_go ds))
          then Some (or_target pointers target (named_type pointers (sub_type title types_map G k)),
                     QStruct (P +:+ title k) (sub_type title types_map G k) (n_desc i) (dead || bool_decide (n_target i <> "")) (n_required i) (fields_by_name ds) :: Ss)
          else None
        end
      end
    else match scalar_name t (bool_decide (n_format i = "date-time")) with
         | Some b => Some (or_target pointers target (QName b (if null then if_pointers pointers else NAlways)), [])
         | None => if decide (t = "string") then Some (or_target pointers target (QName "DateTime" NNever), []) else None
         end
  end.
Definition find_decl (all : string -> string -> bool -> list string -> list (string * tree) -> option (list qdecl * list qstruct))
    (P G : string) (dead req : bool) (k : string) (r : tree) : option (list qdecl * list qstruct) :=
  match d_inst false r with
  | Ok i =>
    if good_name k then
      if decide (the_type i = Some "graphql-hydration") then Some ([QDecl (n_desc i) (go_name title rename k) k (n_gargs i) (QText (n_target i))], [])
      else if decide (the_type i = Some "array") then
        match n_items i with
        | None => None
        | Some x =>
          match d_inst false x with
          | Ok j =>
            if decide (the_type j = Some "graphql-hydration") then
              Some ([total_of title rename trim i k; QDecl (n_desc i) (go_name title rename k) k (n_gargs i)
                (QText (if decide (n_target i = "") then if decide (n_target j = "") then "" else "[" +:+ n_target j +:+ "]" +:+ mark (if_pointers pointers) req else n_target i))], [])
            else if decide (n_target i = "" /\ n_target j <> "") then None
            else match find_holds all P G dead k (n_target i) false j with
                 | Some (t, Ss) => Some ([total_of title rename trim i k; QDecl (n_desc i) (go_name title rename k) k (n_gargs i) (QList t (if_pointers pointers))], Ss)
                 | None => None
                 end
          | _ => None
          end
        end
      else match find_holds all P G dead k (n_target i) (nullable i) i with
           | Some (t, Ss) => Some ([QDecl (n_desc i) (go_name title rename k) k (n_gargs i) t], Ss)
           | None => None
           end
    else None
  | _ => None
  end.
Fixpoint find_all (n : nat) (P G : string) (dead : bool) (reqs : list string) (ps : list (string * tree)) : option (list qdecl * list qstruct) :=
  match n with
  | 0 => None
  | S n' =>
    match ps with
    | [] => Some ([], [])
    | (k, r) :: ps' =>
      match find_decl (find_all n') P G dead (bool_decide (k ∈ reqs)) k r, find_all n' P G dead reqs ps' with
      | Some (ds, Ss), Some (ds', Ss') => Some (ds ++ ds', Ss ++ Ss')
      | _, _ => None
      end
    end
  end.
Lemma the_type_one i t : the_type i = Some t -> one_type i t.
Proof. unfold the_type, one_type. destruct (filter _ _) as [|x [|y l]]; [done| |done]. case_decide; [done|]. by intros [= ->]. Qed.
Lemma find_holds_ok all P G dead k target null r i t Ss : d_inst false r = Ok i ->
  (forall P G dead reqs ps ds Ss, all P G dead reqs ps = Some (ds, Ss) -> qdeclares_all P G dead reqs ps ds Ss) ->
  find_holds all P G dead k target null i = Some (t, Ss) -> qholds P G dead k target null r t Ss.
Proof.
  intros Hi Hall. unfold find_holds. destruct (the_type i) as [ty|] eqn:Ety; [|done]. apply the_type_one in Ety. destruct (decide (ty = "object")) as [->|N].
  - destruct (n_props i) as [[|kp ps]|] eqn:Eps; [|destruct (all _ _ _ _ _) as [[ds Ss']|] eqn:Ea; [|done]|done].
    + intros [= <- <-]. by econstructor.
    + destruct (_ && _) eqn:Eb; [|done]. rewrite !andb_true_iff, !bool_decide_eq_true in Eb. destruct Eb as [[[H1 H2] H3] H4]. intros [= <- <-]. econstructor; try done. by apply Hall.
  - destruct (scalar_name _ _) as [b|] eqn:Es; [intros [= <- <-]; by econstructor|]. destruct (decide (ty = "string")) as [->|]; [|done]. intros [= <- <-]. eapply qholds_time; [done|done|].
    cbn in Es. by case_bool_decide.
Qed.
Lemma find_all_ok n : forall P G dead reqs ps ds Ss, find_all n P G dead reqs ps = Some (ds, Ss) -> qdeclares_all P G dead reqs ps ds Ss.
Proof.
  induction n as [|n IH]; [done|]. intros P G dead reqs ps ds Ss. cbn [find_all]. destruct ps as [|[k r] ps]; [intros [= <- <-]; constructor|].
  destruct (find_decl _ _ _ _ _ _ _) as [[d1 S1]|] eqn:Ed; [|done]. destruct (find_all n P G dead reqs ps) as [[d2 S2]|] eqn:Ea; [|done]. intros [= <- <-]. constructor; [|by apply IH]. clear Ea.
  unfold find_decl in Ed. destruct (d_inst false r) as [i| |] eqn:Hi; [|done|done]. destruct (good_name k) eqn:Hk; [|done]. apply fname in Hk.
  destruct (decide (the_type i = Some "graphql-hydration")) as [Ev|_]; [injection Ed as <- <-; eapply qdeclares_virtual; [done|done|by apply the_type_one]|].
  destruct (decide (the_type i = Some "array")) as [Ea|_].
  - destruct (n_items i) as [x|] eqn:Hx; [|done]. destruct (d_inst false x) as [j| |] eqn:Hj; [|done|done]. apply the_type_one in Ea.
    destruct (decide (the_type j = Some "graphql-hydration")) as [Ev|_]; [injection Ed as <- <-; eapply qdeclares_list_virtual; [done|done|done|done|done|by apply the_type_one]|].
    case_decide as Et; [done|]. destruct (find_holds _ _ _ _ _ _ _ _) as [[t S3]|] eqn:Eh; [|done]. injection Ed as <- <-. eapply qdeclares_list; [done|done|done|done|done| |by eapply find_holds_ok].
    intros E. destruct (decide (n_target j = "")); [done|]. exfalso. by apply Et.
  - destruct (find_holds _ _ _ _ _ _ _ _) as [[t S3]|] eqn:Eh; [|done]. injection Ed as <- <-. eapply qdeclares_value; [done|done|by eapply find_holds_ok].
Qed.
Context (lower : string -> string) (structs_map : string -> option string).
Definition part_of (impl : bool) (name : string) (m : instance) : part :=
  match find_all 50 (title (go_struct title structs_map name)) (title (gql_type title lower structs_map types_map impl name)) false (n_required m) (default [] (n_props m)) with
  | Some (ds, Ss) => Part ds (n_required m) Ss
  | None => Part [] [] []
  end.
Definition part_ok (impl : bool) (name : string) (m : instance) : bool :=
  match n_items m with None => true | Some _ => false end && bool_decide (NoDup (default [] (n_props m)).*1) &&
  match find_all 50 (title (go_struct title structs_map name)) (title (gql_type title lower structs_map types_map impl name)) false (n_required m) (default [] (n_props m)) with
  | Some (ds, Ss) => bool_decide (NoDup (map qd_json ds)) && bool_decide (NoDup (map qd_go ds)) && bool_decide (NoDup (title (go_struct title structs_map name) :: map qs_key Ss))
  | None => false
  end.
Lemma part_found impl name m : part_ok impl name m = true -> declares_part title lower structs_map rename types_map pointers trim impl name m (part_of impl name m).
Proof.
  unfold part_ok, part_of, declares_part, schema_declares. destruct (find_all _ _ _ _ _ _) as [[ds Ss]|] eqn:E; [|by rewrite andb_false_r]. rewrite !andb_true_iff, !bool_decide_eq_true. intros [[H1 H2] [[H3 H4] H5]].
  split; [|done]. split; [by destruct (n_items m)|]. split; [done|]. cbn [p_ds p_S]. split; [by eapply find_all_ok|]. done.
Qed.
Definition common_parts (schema : instance) : list part := map (part_of false (first_file schema)) (n_allOf schema).
Definition member_parts (schema : instance) : list part := map (fun m => part_of (has_all schema) (file_of m) m) (n_oneOf schema).
Definition own_part (file : string) (schema : instance) : part := part_of false file schema.
Definition doc_ok (file : string) (schema : instance) : bool :=
  forallb (part_ok false (first_file schema)) (n_allOf schema) &&
  bool_decide (NoDup (map qd_json (all_ds (common_parts schema)))) && bool_decide (NoDup (map qd_go (all_ds (common_parts schema)))) && bool_decide (NoDup (map qs_key (all_S (common_parts schema)))) &&
  forallb (fun m => part_ok (has_all schema) (file_of m) m &&
    bool_decide (NoDup (map qd_json (all_ds (common_parts schema) ++ p_ds (part_of (has_all schema) (file_of m) m)))) &&
    bool_decide (NoDup (map qd_go (all_ds (common_parts schema) ++ p_ds (part_of (has_all schema) (file_of m) m))))) (n_oneOf schema) &&
  match n_allOf schema, n_oneOf schema with [], [] => part_ok false file schema | _, _ => true end.
Lemma doc_found file schema : doc_ok file schema = true ->
  doc_parts title lower structs_map rename types_map pointers trim file schema (common_parts schema) (member_parts schema) (own_part file schema).
Proof.
  unfold doc_ok, doc_parts. rewrite !andb_true_iff, !bool_decide_eq_true. intros [[[[[H1 H2] H3] H4] H5] H6]. split; [|split; [done|split; [done|split]]].
  - clear H2 H3 H4 H5 H6. unfold common_parts. generalize (part_found false (first_file schema)). revert H1. generalize (part_ok false (first_file schema)) (part_of false (first_file schema)). intros ok f H1 Hf. induction (n_allOf schema) as [|m l IH]; cbn in *; [constructor|].
    apply andb_prop in H1 as [H1 H1']. constructor; [by apply Hf|by apply IH].
  - clear H1 H2 H3 H4 H6. unfold member_parts. revert H5. generalize (all_ds (common_parts schema)) (has_all schema). intros D h H5. induction (n_oneOf schema) as [|m l IH]; cbn in *; [constructor|].
    rewrite !andb_true_iff, !bool_decide_eq_true in H5. destruct H5 as [[[H5 H7] H8] H9]. constructor; [|by apply IH]. split; [by apply part_found|done].
  - intros Ha Ho. rewrite Ha, Ho in H6. by apply part_found.
Qed.
End find.

(** ** schemas *)
Definition gql_args : gargs := GArgs named_args no_names "example.com/pkg" false true.
Definition plain_gql : gargs := GArgs flat_args no_names "example.com/pkg" false false.
Definition no_text (_ : string) : string := "".
Notation title0 := (exported W0).
Notation lower0 := (go_lower W0).
Notation build A ord ord' file name pkg schema := (q_build W0 no_text no_text A ord ord' file name pkg schema).
Definition build_text (A : gargs) (ord : string -> list string -> list string) (schema : instance) : string :=
  match build A ord as_is "root" "root" "pkg" schema with Ok fs => join "" fs.*2 | _ => "" end.
Definition author : tree := obj_of [("name", typed "string" []); ("home", home_schema)] ["name"].
Definition gql_props : list (string * tree) :=
  [("title", typed "string" [("description", jstr "The title")]);
   ("count", types_schema ["integer"; "null"] []);
   ("born", typed "string" [("format", jstr "date-time")]);
   ("authors", arr_schema author []);
   ("tags", arr_schema (typed "string" []) []);
   ("place", home_schema);
   ("more", obj_of [] [])].
Definition gql_schema : instance := schema_of gql_props ["title"; "authors"].
Notation part_for A := (part_of (exported W0) (a_fieldNames (ga A)) (ga_types A) (a_pointers (ga A)) (trim_space no_text) (go_lower W0) (a_structNames (ga A))).
Definition gql_own : part := part_for gql_args false "root" gql_schema.
Lemma gql_declared : declares_part title0 lower0 (a_structNames (ga gql_args)) (a_fieldNames (ga gql_args)) (ga_types gql_args) (a_pointers (ga gql_args)) (trim_space no_text) false "root" gql_schema gql_own.
Proof. apply part_found. vm_compute. reflexivity. Qed.

(** a schema made of others: an interface and two types that implement it *)
Definition from_file (path : string) (ps : list (string * tree)) (req : list string) : instance :=
  Inst true [] [] "" None false "" path [] None [] (Some ps) "" req "" "" (Some ["object"]).
Definition made_of (alls ones : list instance) : instance := Inst true alls [] "" None false "" "" [] None ones None "" [] "" "" (Some ["object"]).
Definition base_file : instance := from_file "./base.json" [("id", typed "string" []); ("authors", arr_schema author [])] ["id"].
Definition article_file : instance := from_file "./article.json" [("body", typed "string" []); ("place", home_schema); ("related", typed "graphql-hydration" [("target", jstr "[Item]")])] ["body"].
Definition video_file : instance := from_file "./video.json" [("seconds", typed "number" [])] [].
Definition item_schema : instance := made_of [base_file] [article_file; video_file].
Definition item_args : gargs := GArgs (Args true true true false no_names no_names) no_names "example.com/item" true true.
Definition item_cs : list part := common_parts title0 no_names no_names true (trim_space no_text) lower0 no_names item_schema.
Definition item_os : list part := member_parts title0 no_names no_names true (trim_space no_text) lower0 no_names item_schema.
Definition item_own : part := own_part title0 no_names no_names true (trim_space no_text) lower0 no_names "item" item_schema.
Lemma item_declared : doc_parts title0 lower0 no_names no_names no_names true (trim_space no_text) "item" item_schema item_cs item_os item_own.
Proof. apply doc_found. vm_compute. reflexivity. Qed.

(** ** searching *)
Lemma str_in_contains x text : str_in x text = true -> contains text x.
Proof.
  induction text as [|c text IH]; cbn [str_in].
  - intros H. destruct x; [|done]. exists "", "". done.
  - destruct (has_prefix x (String c text)) eqn:E; cbn [orb].
    + intros _. apply has_prefix_spec in E as [t ->]. exists "", t. done.
    + intros H. destruct (IH H) as (a & b & ->). exists (String c a), b. by rewrite sapp_cons.
Qed.
Lemma str_in_not x text : str_in x text = false -> ~ contains text x.
Proof.
  intros H (a & b & ->). revert H. induction a as [|c a IH].
  - rewrite sapp_nil_l. destruct (x +:+ b) as [|c t] eqn:E; cbn [str_in]; [by destruct x|]. rewrite <- E, has_prefix_app. done.
  - rewrite sapp_cons. cbn [str_in]. destruct (has_prefix _ _); [done|]. apply IH.
Qed.
Lemma not_written files x : forallb (fun ft : string * string => negb (str_in x ft.2)) files = true -> ~ written files x.
Proof.
  rewrite forallb_forall. intros H (f & t & Hin & Hc). specialize (H (f, t) (proj1 (elem_of_list_In _ _) Hin)). cbn in H. apply negb_true_iff in H. by eapply str_in_not.
Qed.
