(** C61: exactly when the interface that types implement is declared. *)
From stdpp Require Import strings list gmap.
From Coq Require Import Ascii ZArith Lia.
From Verif Require Import GoStr GoStrL Val Conv Schema Inst Load SpecPath PathL SpecWalk WalkL SpecLoad FlatL SpecGen SpecNamed SpecGql Gen Avro Gql GenL SortL GenP GenM GenT NamedL NamedT NamedF NamedK GqlL GqlM GqlT GqlF GqlB GqlC GqlD SpecDoc GqlE.
Lemma interface_there W A name pkg file schema cs os own kind impl J :
  Forall (fun m => n_oneOf m = []) (n_oneOf schema) ->
  (kind, impl, J) ∈ doc_types (exported W) (go_lower W) (a_structNames (ga A)) (ga_types A) name pkg file schema cs os own -> impl <> "" ->
  (exists i I, ("interface", i, I) ∈ doc_types (exported W) (go_lower W) (a_structNames (ga A)) (ga_types A) name pkg file schema cs os own /\ qs_name I = impl /\ conforms J I) <->
  default (exported W name) (ga_types A name) = default (exported W pkg) (ga_types A pkg).
Proof.
  intros Hms Hd Hi.
  assert (Ho : n_oneOf schema <> []).
  { rewrite doc_types_in in Hd. destruct Hd as [[Hh [[=]|(x & [=] & _)]]|[(j & m & c & Hm & _)|(_ & _ & [[=]|(x & [=] & _)])]]; try done.
    intros E. by rewrite E in Hm. }
  split.
  - intros (i & I & HI & Hn & _). rewrite doc_types_in in Hd, HI.
    assert (Hh : has_all schema = true /\ impl = default (exported W name) (ga_types A name)).
    { destruct Hd as [[Hh [[=]|(x & [=] & _)]]|[(j & m & c & Hm & Hc & [[=]|(x & [=] & _)])|(Ha & Ho' & _)]]; try done.
      unfold implemented in *. destruct (has_all schema); [done|]. by subst. }
    destruct Hh as [Hh Himpl].
    destruct HI as [[_ [E|(x & E & _)]]|[(j & m & c & Hm & Hc & [E|(x & E & _)])|(Ha & Ho' & _)]]; [|done| |done|done].
    + injection E as _ _ ->. rewrite <- Himpl, <- Hn. unfold common_type. cbn [qs_name]. by destruct (n_oneOf schema).
    + exfalso. injection E as Ek _ _. rewrite Forall_forall in Hms. unfold kind_of in Ek.
      by rewrite (Hms m) in Ek by (by eapply elem_of_list_lookup_2).
  - intros Hn. destruct (doc_interfaces W A name pkg file schema cs os own kind impl J Ho Hn Hd Hi) as (I & HI & H). by exists "", I.
Qed.
