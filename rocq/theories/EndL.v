(** Runs of the generator for schemas with a broken member. *)
From stdpp Require Import strings list gmap.
From Coq Require Import Ascii Lia.
From Verif Require Import GoStr GoStrL Val Conv Schema Inst Load FlatL SpecPath SpecWalk SpecLoad SpecGen SpecNamed SpecFiles WalkL Gen GenL GenP GenT Files FilesL.
From Verif Require Import DescL Gql Avro GoSrc Mapper SpecAvro SpecGo SpecEmbed SpecWhole SortL NamedL EmbedL AvroFuel Whole WholeL SpecRef SpecDang DangL.
Set Default Proof Using "Type".

Section proofs.
Context (W : oracles) (F : files) (o_abs : string -> string) (o_fmt : string -> option string).
Context (o_quote o_trim o_quote_avro : string -> string) (o_unquote : string -> option string) (o_tag : afield -> string).
Context (o_types : string -> string) (o_gogen : string -> string -> option dir) (o_declared : dir -> string -> option texpr).
Context (o_join : list string -> string) (o_msgp : dir -> option (option (string * string * string))).
Context (A : run_args) (pkg : string).
Context (ord : nat -> string -> list string -> list string) (ord' : nat -> list string -> list string -> list string).
Notation SA := (ga (r_gql A)).
Notation title := (exported W).
Notation lower := (go_lower W).
Notation run := (run W F o_abs o_fmt o_quote o_trim o_quote_avro o_unquote o_tag o_types o_gogen o_declared o_join o_msgp A pkg ord ord').
Notation build_members := (build_members W F o_abs o_fmt o_quote_avro o_unquote o_tag o_types o_gogen o_declared o_join A pkg ord ord').
Notation build_one := (build_one W F o_abs o_fmt o_quote_avro o_unquote o_tag o_types o_gogen o_declared o_join A pkg ord ord').
Notation build_gql := (build_gql W F o_abs o_quote o_trim A pkg).
Notation members_of := (members_of W o_abs A).
Notation members i sp := (SpecWhole.member title (a_structNames SA) i (o_abs sp)).
Notation broken name path := (SpecDang.broken F name (negb (a_embed SA)) path).

Lemma members_all sp i ref name : members i sp ref name ->
  exists embeds, (ref, name, embeds) ∈ members_of sp (map n_ref (n_allOf i)) (map n_ref (n_oneOf i)) (sort_strings (default [] (n_props i)).*1).
Proof.
  unfold Whole.members_of. cbn zeta. pose proof (own_iff i) as Ho. intros [H|H ->|H].
  - exists []. apply elem_of_app. left. apply elem_of_list_fmap. exists ref. split; [done|]. apply elem_of_app. by left.
  - exists []. apply elem_of_app. left. apply elem_of_list_fmap. exists (o_abs sp). split; [done|]. apply elem_of_app. right.
    apply Ho in H. rewrite H. by apply elem_of_list_singleton.
  - eexists. apply elem_of_app. right. apply elem_of_list_fmap. exists ref. split; [reflexivity|done].
Qed.
Lemma one_broken n fuel i sp child name embeds d d' r : broken name (child_path F o_abs sp child) ->
  build_one n fuel i sp child name embeds d = Some (d', r) -> d' = d /\ r <> Ok tt.
Proof.
  intros Hb. unfold Whole.build_one, build_struct_file. pose proof (broken_fails F name (negb (a_embed SA)) _ Hb n) as Hl.
  destruct (load_schema F name (negb (a_embed SA)) n (child_path F o_abs sp child)) as [[schema| |]|]; [by destruct (Hl schema)| | |done];
    intros [= <- <-]; (split; [by destruct d|done]).
Qed.
Lemma members_broken n fuel sp ref name : broken name (child_path F o_abs sp ref) ->
  forall ms i d d' r embeds, (ref, name, embeds) ∈ ms -> build_members n fuel i sp ms d = Some (d', r) ->
  r <> Ok tt /\ (forall f, (forall m, m ∈ ms -> f ∈ names_for title lower (r_avro A) (child_path F o_abs sp m.1.1) m.1.2 -> m.1 = (ref, name)) ->
    assocd f (d_out d') = assocd f (d_out d)).
Proof.
  intros Hb ms. induction ms as [|[[child nm] es] ms IH]; intros i d d' r embeds Hin; [by apply elem_of_nil in Hin|]. cbn [Whole.build_members].
  destruct (decide ((child, nm) = (ref, name))) as [E|E].
  - injection E as -> ->. destruct (build_one n fuel i sp ref name es d) as [[d1 r1]|] eqn:E1; [|done].
    destruct (one_broken _ _ _ _ _ _ _ _ _ _ Hb E1) as [-> Hr]. destruct r1 as [[]| |]; [done|by intros [= <- <-]..].
  - apply elem_of_cons in Hin as [Hin|Hin]; [by injection Hin as -> -> ->|].
    destruct (build_one n fuel i sp child nm es d) as [[d1 r1]|] eqn:E1; [|done].
    pose proof E1 as F1. apply one_frame in F1 as (F1 & _).
    assert (Hf : forall f, (forall m, m ∈ (child, nm, es) :: ms -> f ∈ names_for title lower (r_avro A) (child_path F o_abs sp m.1.1) m.1.2 -> m.1 = (ref, name)) ->
      assocd f (d_out d1) = assocd f (d_out d)).
    { intros f Ho. apply F1. intros Hn. apply E. apply (Ho (child, nm, es)); [left|done]. }
    destruct r1 as [[]| |]; [|by intros [= <- <-]..].
    intros H. destruct (IH _ _ _ _ _ Hin H) as [Hr Hd]. split; [done|]. intros f Ho. rewrite Hd, Hf; [done|done|].
    intros m Hm. apply Ho. by right.
Qed.
Lemma run_broken n fuel og og' sp doc i ref name d d' r : f_file F (o_abs sp) = Some doc -> d_inst false doc = Ok i ->
  members i sp ref name -> broken name (if has_prefix "/" ref then o_abs ref else f_rel F sp ref) ->
  run n fuel og og' sp d = Some (d', r) ->
  r <> Ok tt /\ (forall f, (forall ref' name', members i sp ref' name' ->
    f ∈ names_for title lower (r_avro A) (if has_prefix "/" ref' then o_abs ref' else f_rel F sp ref') name' -> ref' = ref /\ name' = name) ->
    assocd f (d_out d') = assocd f (d_out d)).
Proof.
  intros Hdoc Hi Hm Hb. unfold Whole.run. rewrite Hdoc, (types_own _ _ Hi). destruct (members_all _ _ _ _ Hm) as [embeds Hin].
  destruct (if r_graphql A then _ else _) as [[dg rg]|] eqn:Eg; [|done].
  assert (Hg : d_out dg = d_out d \/ forall f, assocd f (d_out dg) = assocd f (d_out d)).
  { destruct (r_graphql A); [|injection Eg as <- <-; by left]. right.
    pose proof Eg as F1. apply gql_frame in F1 as (F1 & _). intros f. apply F1; by intros []. }
  assert (Hg' : forall f, assocd f (d_out dg) = assocd f (d_out d)) by (destruct Hg as [->|]; done). clear Hg.
  destruct rg as [[]| |]; [|by intros [= <- <-]..].
  destruct (build_members n fuel 0 sp _ dg) as [[dm rm]|] eqn:Em; [|done].
  destruct (members_broken _ _ _ _ _ Hb _ _ _ _ _ _ Hin Em) as [Hr Hd].
  destruct rm as [[]| |]; [done|..]; intros [= <- <-]; (split; [done|]); intros f Hf; rewrite Hd; [apply Hg'| |apply Hg'|];
    intros m Hm' Hn; destruct (Hf m.1.1 m.1.2) as [E1 E2]; [eapply members_are; exact Hm'|done|by destruct m as [[? ?] ?]; cbn in *; subst| |done|by destruct m as [[? ?] ?]; cbn in *; subst].
  eapply members_are; exact Hm'.
Qed.
End proofs.
