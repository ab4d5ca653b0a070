(** When Walk and WalkRaw agree, exactly. *)
From stdpp Require Import strings list gmap.
From Coq Require Import ZArith.
From Verif Require Import GoStr Val Schema Inst SpecPath SpecSchema SpecWalk World Cases.
From Verif Require Import WalkL.

Lemma walks_agree_exactly ord props items l1 r1 l2 r2 : map_order ord -> named (default [] props) ->
  (forall σ r, sinst (default [] props) items σ r -> props_named r /\ exists ty nl, field_type r = Ok (ty, nl)) ->
  walk_raw_schema record (default [] props) items [] = (l1, r1) ->
  walk_schema record ord props items [] = (l2, r2) ->
  (r2 = Ok tt <-> r1 = Ok tt /\ forall σ r, sinst (default [] props) items σ r -> exists i, d_inst false r = Ok i) /\
  (r2 = Ok tt -> exists l3, l3 ≡ₚ l1 /\ Forall2 (fun a b => a.1 = b.1 /\ d_inst false a.2 = Ok b.2) l3 l2).
Proof.
  intros Hord Hnm Hall H1 H2.
  assert (Heq : forall σ r, sinst (default [] props) items σ r -> swinst (default [] props) items σ r).
  { intros σ r [k p τ x Hin Hi|i τ x Hi0 Hi].
    - eapply swinst_prop; [done|]. apply inst_winst; [|done]. intros τ' y Hy. eapply (Hall (Nm k :: τ')). by econstructor.
    - eapply swinst_item; [done|]. apply inst_winst; [|done]. intros τ' y Hy. eapply (Hall (Star :: τ')). by econstructor. }
  assert (Heq' : forall σ r, swinst (default [] props) items σ r -> sinst (default [] props) items σ r).
  { intros σ r [k p τ x Hin Hi|i τ x Hi0 Hi].
    - eapply sinst_prop; [done|]. apply inst_winst; [|done]. intros τ' y Hy. eapply (Hall (Nm k :: τ')). by econstructor.
    - eapply sinst_item; [done|]. apply inst_winst; [|done]. intros τ' y Hy. eapply (Hall (Star :: τ')). by econstructor. }
  assert (Hd : r2 = Ok tt -> forall σ r, sinst (default [] props) items σ r -> exists i, d_inst false r = Ok i).
  { intros Hr σ r Hi.
    destruct (walk_visits ord props items Hord Hnm) as (ws & is & f2 & E2 & E3 & B1 & B2 & B3 & _ & B5 & _).
    { intros σ' r' Hi'. eapply Hall. by apply Heq'. }
    rewrite E2, calls_record in H2. injection H2 as _ <-. by apply (proj1 B5 Hr σ r (Heq _ _ Hi)). }
  assert (Hag : (forall σ r, sinst (default [] props) items σ r -> exists i, d_inst false r = Ok i) ->
    (r1 = Ok tt <-> r2 = Ok tt) /\
    (r1 = Ok tt -> exists l3, l3 ≡ₚ l1 /\ Forall2 (fun a b => a.1 = b.1 /\ d_inst false a.2 = Ok b.2) l3 l2)).
  { intros Hx. eapply walks_agree; try done. intros σ r Hi. destruct (Hall σ r Hi). split_and!; [done..|]. by eapply Hx. }
  split.
  - split.
    + intros Hr. split; [|by apply Hd]. by apply Hag; [apply Hd|].
    + intros [Hr Hx]. by apply Hag.
  - intros Hr. apply Hag; [by apply Hd|]. apply Hag; [by apply Hd|done].
Qed.

(** two types: WalkRaw fails and Walk does not *)
Definition two_types : list (string * tree) := [("a", TObj [("type", TArr [jstr "string"; jstr "number"])])].
