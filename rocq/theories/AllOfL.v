(** Properties of allOf members without flattening. *)
From stdpp Require Import strings list gmap.
From Verif Require Import GoStr Val Schema Inst SpecPath SpecSchema SpecWalk Load SpecLoad LoadL FlatL.

Lemma first_found_some k ls : is_Some (first_found k ls) <-> exists l, l ∈ ls /\ is_Some (assoc k l).
Proof.
  induction ls as [|l ls IH]; cbn [first_found]; [split; [by intros [? [=]]|by intros (? & ?%elem_of_nil & _)]|].
  setoid_rewrite elem_of_cons. destruct (assoc k l) as [v|] eqn:E.
  - split; [|by eexists]. intros _. exists l. split; [by left|by rewrite E].
  - rewrite IH. split; intros (l' & Hl & Hs); exists l'; split; auto. destruct Hl as [->|]; [|done]. rewrite E in Hs. by destruct Hs.
Qed.
Lemma all_members ty i m l ones : ty <> "" -> ty <> "/" -> n_props i = None -> n_allOf i = m :: l ->
  picks (fun m => file_name (n_fromRef m) ty) (n_oneOf i) ones ->
  (forall a k, a ∈ n_allOf i -> is_Some (assoc k (props_of a)) -> is_Some (assoc k (props_of (flatten false ty i)))) <->
  (forall a k, a ∈ l -> is_Some (assoc k (props_of a)) -> exists b, b ∈ m :: ones /\ is_Some (assoc k (props_of b))).
Proof.
  intros H1 H2 Hp Ha Hk. destruct (noflatten_first ty i m l ones H1 H2 Hp Ha Hk) as [[Hab _] _].
  assert (Hs : forall k, is_Some (assoc k (props_of (flatten false ty i))) <-> exists b, b ∈ m :: ones /\ is_Some (assoc k (props_of b))).
  { intros k. rewrite Hab, first_found_some. split.
    - intros (q & Hq & Hs). apply elem_of_list_fmap in Hq as (b & -> & Hb). apply elem_of_cons in Hb as [->|Hb]; [|by exists b].
      unfold props_of in Hs. rewrite Hp in Hs. cbn in Hs. by destruct Hs.
    - intros (b & Hb & Hs). exists (props_of b). split; [|done]. apply elem_of_list_fmap. exists b. split; [done|]. by right. }
  setoid_rewrite Hs. rewrite Ha. setoid_rewrite elem_of_cons at 1. split.
  - intros H a k Hin. apply (H a k). by right.
  - intros H a k [->|Hin] Hx; [|by apply (H a k)]. exists m. split; [left|done].
Qed.
