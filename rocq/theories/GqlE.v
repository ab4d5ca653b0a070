(** Properties of the files that are written. *)
From stdpp Require Import strings list gmap.
From Coq Require Import Ascii ZArith Lia.
From Verif Require Import GoStr GoStrL Val Conv Schema Inst Load SpecPath PathL SpecWalk WalkL SpecLoad FlatL SpecGen SpecNamed SpecGql Gen Avro Gql GenL SortL GenP GenM GenT NamedL NamedT NamedF NamedK GqlL GqlM GqlT GqlF GqlB GqlC GqlD SpecDoc.

(** *** schemas without a member *)
Fixpoint without (m : string) (t : tree) : bool :=
  match t with TObj kvs => forallb (fun kv : string * tree => let (k, v) := kv in bool_decide (k <> m) && without m v) kvs | _ => true end.
Lemma without_assoc m kvs k v : without m (TObj kvs) = true -> assoc k kvs = Some v -> without m v = true.
Proof.
  cbn. induction kvs as [|[k' v'] kvs IH]; [done|]. cbn. intros [[_ H]%andb_prop H']%andb_prop. case_decide; [intros [= <-]; done|]. by apply IH.
Qed.
Lemma without_in m kvs k v : without m (TObj kvs) = true -> (k, v) ∈ kvs -> without m v = true.
Proof.
  cbn. induction kvs as [|[k' v'] kvs IH]; [intros _ H; by apply elem_of_nil in H|]. cbn. intros [[_ H]%andb_prop H']%andb_prop [[= -> ->]|Hin]%elem_of_cons; [done|]. by apply IH.
Qed.
Lemma without_none m kvs : without m (TObj kvs) = true -> assoc m kvs = None.
Proof. cbn. induction kvs as [|[k' v'] kvs IH]; [done|]. cbn. intros [[H _]%andb_prop H']%andb_prop. apply bool_decide_eq_true in H. rewrite decide_False by done. by apply IH. Qed.
Lemma without_below m p τ r : winst p τ r -> without m p = true -> without m r = true.
Proof.
  induction 1 as [raw|raw ps k p τ r Ho Hps Hin Hw IH|raw x τ r Ho Ha Hx Hw IH]; [done| |]; intros H; apply IH.
  - destruct raw as [| |kvs| |]; [done|done| |done|done]. eapply without_in; [|done]. by eapply without_assoc.
  - destruct raw as [| |kvs| |]; [done|done| |done|done]. by eapply without_assoc.
Qed.
Lemma without_target r i : d_inst false r = Ok i -> without "target" r = true -> n_target i = "".
Proof.
  intros H Hw. destruct (d_inst_cases _ _ _ H) as [[kvs ->]|[-> ->]]; [|done]. apply without_none in Hw. cbn [d_inst] in H. rewrite Hw in H.
  repeat match type of H with context [rbind ?x _] => let E := fresh "E" in destruct x eqn:E; cbn [rbind] in H; [|discriminate H..] end.
  injection H as <-. cbn in *. congruence.
Qed.
Lemma without_targets schema : forallb (fun kv : string * tree => without "target" kv.2) (default [] (n_props schema)) = true -> no_targets schema.
Proof.
  intros H n (σ & r & i & Hw & Hi & <-). destruct Hw as [k p τ r Hin Hw|? ? ? [=]]. eapply without_target; [done|]. eapply without_below; [done|].
  rewrite forallb_forall in H. exact (H (k, p) (proj1 (elem_of_list_In _ _) Hin)).
Qed.

Lemma types_objects title rename types_map pointers trim P G dead reqs ps ds Ss : qdeclares_all title rename types_map pointers trim P G dead reqs ps ds Ss -> NoDup ps.*1 ->
  exists l, map qs_key Ss = map (SpecNamed.type_name title P) l /\ NoDup l /\ forall σ, σ ∈ l <-> object_in ps σ.
Proof.
  intros H Hnd. destruct (proj2 (proj2 (qdeclares_objects title rename types_map pointers trim)) _ _ _ _ _ _ _ H Hnd) as (l & H1 & H2 & H3). exists l. split; [done|]. split; [done|]. intros σ. by rewrite H3, inprops_in.
Qed.

Section files.
Context (W : oracles) (o_quote o_trim : string -> string) (A : gargs).
Set Default Proof Using "Type".
Notation rename := (a_fieldNames (ga A)).
Notation types_map := (ga_types A).
Notation title := (exported W).
Notation lower := (go_lower W).
Notation structs_map := (a_structNames (ga A)).
Notation pointers := (a_pointers (ga A)).
Notation quote := (q o_quote).
Notation trim := (trim_space o_trim).
Notation import := (ga_import A).
Notation document := (document title lower structs_map types_map quote trim import).
Notation doc_types := (doc_types title lower structs_map types_map).
Notation declares_part := (declares_part title lower structs_map rename types_map pointers trim).
Notation doc_parts := (doc_parts title lower structs_map rename types_map pointers trim).
Notation one_schema := (one_schema title lower structs_map rename types_map pointers trim).
Notation q_build := (q_build W o_quote o_trim A).

(** *** interfaces *)
Lemma doc_interfaces name pkg file schema cs os own kind impl J : n_oneOf schema <> [] ->
  default (title name) (types_map name) = default (title pkg) (types_map pkg) ->
  (kind, impl, J) ∈ doc_types name pkg file schema cs os own -> impl <> "" ->
  exists I, ("interface", "", I) ∈ doc_types name pkg file schema cs os own /\ qs_name I = impl /\ conforms J I.
Proof.
  intros Ho Hn Hd Hi. rewrite doc_types_in in Hd. setoid_rewrite doc_types_in. destruct Hd as [[Hh [[=]|(x & [=] & _)]]|[(j & m & c & Hm & Hc & [[=]|(x & [=] & _)])|(Ha & Ho' & _)]]; try done.
  assert (Hh : has_all schema = true). { unfold implemented in *. destruct (has_all schema); [done|]. by subst. }
  exists (common_type title structs_map types_map pkg schema cs). split.
  - left. split; [done|]. left. unfold kind_of. by destruct (n_oneOf schema).
  - subst. split; [|apply member_conforms]. unfold common_type, implemented. cbn [qs_name]. rewrite Hh. by destruct (n_oneOf schema).
Qed.
(** *** one schema *)
Lemma one_parts file schema own : one_schema file schema own -> doc_parts file schema [] [] own.
Proof.
  intros (Ha & Ho & Hd & _). unfold SpecDoc.doc_parts. rewrite Ha, Ho. split; [constructor|]. split; [split; constructor|]. split; [constructor|]. split; [constructor|]. done.
Qed.
Section one.
Context (ord : string -> list string -> list string) (ord' : list string -> list string -> list string) (file name pkg : string) (schema : instance) (own : part) (files : list (string * string)).
Context (Hn : a_noNested (ga A) = true) (Hord : map_order ord) (Hord' : key_order ord') (Hone : one_schema file schema own) (Hb : q_build ord ord' file name pkg schema = Ok files).
Lemma one_files : files = document (ga_any A) (ga_files A) file name pkg schema [] [] own.
Proof using All.
  pose proof (build_eq W o_quote o_trim A ord ord' file name pkg schema [] [] own Hn Hord Hord' (one_parts _ _ _ Hone)) as E. destruct Hone as (_ & Ho & _). rewrite E in Hb; [by injection Hb|]. intros _. by rewrite Ho.
Qed.
Lemma one_scalar σ k r req i t b : prop_at schema σ k r req -> d_inst false r = Ok i -> one_type i t -> scalar_name t (bool_decide (n_format i = "date-time")) = Some b ->
  written files (plain_line quote trim k (b +:+ (if nullable i && pointers && negb req then "" else "!")) (n_desc i)).
Proof using All. rewrite one_files. destruct Hone as (H1 & H2 & H3 & H4). by eapply scalar_line. Qed.
Lemma one_time σ k r req i : prop_at schema σ k r req -> d_inst false r = Ok i -> one_type i "string" -> n_format i = "date-time" -> written files (plain_line quote trim k "DateTime" (n_desc i)).
Proof using All. rewrite one_files. destruct Hone as (H1 & H2 & H3 & H4). by eapply time_line. Qed.
Lemma one_object σ k r req i kp ps : prop_at schema σ k r req -> d_inst false r = Ok i -> one_type i "object" -> n_props i = Some (kp :: ps) ->
  exists T, (T <> "DateTime" -> written files (plain_line quote trim k (T +:+ pointer_mark pointers req) (n_desc i))) /\ exists text, type_start T text /\ written files text.
Proof using All. rewrite one_files. destruct Hone as (H1 & H2 & H3 & H4). by eapply object_line_q. Qed.
Lemma one_any σ k r req i : prop_at schema σ k r req -> d_inst false r = Ok i -> one_type i "object" -> n_props i = Some [] -> written files (plain_line quote trim k "Any" (n_desc i)).
Proof using All. rewrite one_files. destruct Hone as (H1 & H2 & H3 & H4). by eapply any_line. Qed.
Lemma one_list_scalar σ k r req i x j t b : prop_at schema σ k r req -> d_inst false r = Ok i -> one_type i "array" -> n_items i = Some x ->
  d_inst false x = Ok j -> one_type j t -> scalar_name t (bool_decide (n_format j = "date-time")) = Some b ->
  written files (list_line quote trim k ("[" +:+ b +:+ "!]" +:+ pointer_mark pointers req) (n_desc i)).
Proof using All. rewrite one_files. destruct Hone as (H1 & H2 & H3 & H4). by eapply list_scalar_line. Qed.
Lemma one_list_object σ k r req i x j kp ps : prop_at schema σ k r req -> d_inst false r = Ok i -> one_type i "array" -> n_items i = Some x ->
  d_inst false x = Ok j -> one_type j "object" -> n_props j = Some (kp :: ps) ->
  exists T, (T <> "DateTime" -> written files (list_line quote trim k ("[" +:+ T +:+ pointer_mark pointers req +:+ "]" +:+ pointer_mark pointers req) (n_desc i))) /\ exists text, type_start T text /\ written files text.
Proof using All. rewrite one_files. destruct Hone as (H1 & H2 & H3 & H4). by eapply list_object_line. Qed.
End one.
(** *** Go *)
Lemma doc_go file name pkg schema own gs Gs t : n_allOf schema = [] -> n_oneOf schema = [] -> declares_part false file schema own ->
  ndeclares_all title rename pointers (title (go_struct title structs_map file)) (n_required schema) (default [] (n_props schema)) gs Gs ->
  t ∈ doc_types name pkg file schema [] [] own ->
  exists fs, (qs_key t.2, fs) ∈ (go_struct title structs_map file, by_name gs) :: Gs /\
    go_fields (is_total title rename trim) (target_in (default [] (n_props schema))) (p_S own) (qs_fields t.2) fs.
Proof.
  intros Ha Ho [(_ & _ & Hq & _) _] Hg Ht. destruct (proj2 (proj2 (qdeclares_bound title rename types_map pointers trim)) _ _ _ _ _ _ _ Hq _ _ Hg) as [H1 H2].
  apply doc_types_in in Ht as [[Hh _]|[(j & m & c & Hm & _)|(_ & _ & [->|(x & -> & Hx & _)])]].
  - unfold has_all in Hh. by rewrite Ha in Hh.
  - rewrite Ho in Hm. done.
  - eexists. split; [left|]. cbn [snd own_type qs_fields]. intros d Hd. rewrite fields_by_name_perm in Hd. intros Hv Hto. destruct (H1 d Hd Hv Hto) as (g & ty & Hgg & H). exists g, ty. split; [by rewrite by_name_perm|done].
  - destruct (H2 x Hx) as (fs & Hfs & Hb). exists fs. split; [by right|done].
Qed.
End files.
