(** Reading a document into a struct and writing it again. *)
From stdpp Require Import strings list gmap.
From Coq Require Import Ascii ZArith Lia Floats.SpecFloat.
From Verif Require Import GoStr Val Conv Schema Inst Load SpecGen SpecNamed GenL SpecGo GoJson SpecJson.

Definition yptr (b : bool) (y : jt) : jt := if b then YPtr y else y.
Definition is_yptr (y : jt) : bool := match y with YPtr _ => true | _ => false end.
Definition is_ystruct (y : jt) : bool := match y with YStruct _ => true | _ => false end.
Definition ybase (t : string) (date : bool) : option jt :=
  if decide (t = "boolean") then Some YBool else if decide (t = "number") then Some YFloat else if decide (t = "integer") then Some YInt
  else if decide (t = "string") then (if date then None else Some YString) else None.

Section one.
Lemma one_fun i t t' : one_type i t -> one_type i t' -> t = t'.
Proof. intros [H _] [H' _]. rewrite H in H'. by injection H'. Qed.
Lemma one_in i t x : one_type i t -> x ∈ types i -> x <> "null" -> x = t.
Proof. intros [H _] Hx Hn. assert (Hf : x ∈ filter (fun x => x <> "null") (types i)) by (apply elem_of_list_filter; done). rewrite H in Hf. by apply elem_of_list_singleton in Hf. Qed.
Lemma one_leaf r i t : d_inst false r = Ok i -> one_type i t -> t <> "graphql-hydration" -> ~ graphql_leaf r.
Proof. intros Hd Ht Hne (j & Hj & Hh & _). rewrite Hd in Hj. injection Hj as <-. apply Hne. symmetry. by eapply one_in. Qed.
Lemma one_graphql r i t : d_inst false r = Ok i -> one_type i t -> t <> "graphql-hydration" -> t <> "array" -> ~ graphql_only r.
Proof.
  intros Hd Ht Hne Ha [H|(j & x & Hj & Hx & _)]; [by eapply one_leaf|]. rewrite Hd in Hj. injection Hj as <-. apply Ha. by eapply one_fun.
Qed.
End one.

Section shape.
Context (W : oracles) (o_json_num : spec_float -> string) (o_fold : string -> string) (flat pointers : bool).
Notation fits := (fits W o_fold).
Notation optional := (optional flat pointers).
Notation vacant := (vacant W flat pointers).
Notation left_out := (left_out W flat pointers).
Notation comes_out := (comes_out W o_json_num flat pointers).
Notation member_out := (member_out W o_json_num flat pointers).
Notation members_out := (members_out W o_json_num flat pointers).
Notation decode := (decode W o_fold).
Notation marshal := (marshal W o_json_num).

(** the JSON type of a schema *)
Inductive shp : bool -> bool -> tree -> jt -> Prop :=
| shp_base req null r i t b : d_inst false r = Ok i -> one_type i t -> ybase t (bool_decide (n_format i = "date-time")) = Some b -> shp req null r (yptr null b)
| shp_time req null r i : d_inst false r = Ok i -> is_time i -> shp req null r (yptr ((pointers && negb req) || null) YTime)
| shp_object req null r i ps fs fs' : d_inst false r = Ok i -> one_type i "object" -> n_props i = Some ps -> ~ free_form ps ->
    shps (n_required i) ps fs -> fs ≡ₚ fs' -> NoDup ps.*1 ->
    shp req null r (yptr (if flat then (pointers && negb req) || nullable i else null) (YStruct fs'))
| shp_map req null r i ps : d_inst false r = Ok i -> one_type i "object" -> n_props i = Some ps -> free_form ps ->
    (flat = true -> (pointers && negb req) || nullable i = false) -> shp req null r (yptr null YMap)
with shpf : bool -> string -> tree -> list jf -> Prop :=
| shpf_value req k r i y : d_inst false r = Ok i -> shp req (nullable i) r y ->
    shpf req k r [JF k (negb req && negb (is_ystruct y)) (negb req && is_ystruct y) y]
| shpf_array req k r i x y : d_inst false r = Ok i -> one_type i "array" -> n_items i = Some x -> shp req (nullable i) x y ->
    shpf req k r [JF k (negb req) false (YSlice y)]
| shpf_none req k r i x : d_inst false r = Ok i -> one_type i "array" -> n_items i = Some x -> graphql_leaf x -> shpf req k r []
with shps : list string -> list (string * tree) -> list jf -> Prop :=
| shps_nil reqs : shps reqs [] []
| shps_leaf reqs k r ps fs : graphql_leaf r -> shps reqs ps fs -> shps reqs ((k, r) :: ps) fs
| shps_cons reqs k r ps fs fs' : shpf (bool_decide (k ∈ reqs)) k r fs -> shps reqs ps fs' -> shps reqs ((k, r) :: ps) (fs ++ fs').
Scheme shp_ind2 := Minimality for shp Sort Prop with shpf_ind2 := Minimality for shpf Sort Prop with shps_ind2 := Minimality for shps Sort Prop.
Combined Scheme shp_mutind from shp_ind2, shpf_ind2, shps_ind2.

(** ** equations *)
Definition omits (y : jt) (v : gv) : bool := if is_ystruct y then is_zero v else is_empty v.
Definition dec_of (f : jf) : string * (gv -> json -> option gv) := match f with JF n _ _ t => (n, fun c x => decode t c x) end.
Definition zero_of (f : jf) : gv := zero (jf_type f).
Definition val (kvs : list (string * json)) (f : jf) : gv :=
  match assocd (jf_name f) kvs with Some d => default (zero_of f) (decode (jf_type f) (zero_of f) d) | None => zero_of f end.
Definition omitted (f : jf) (v : gv) : bool := let 'JF _ oe oz _ := f in (oe && is_empty v) || (oz && is_zero v).
Definition out (kvs : list (string * json)) (f : jf) : list (string * json) :=
  if omitted f (val kvs f) then [] else [(jf_name f, default JNull (marshal (jf_type f) (val kvs f)))].
Definition okf (kvs : list (string * json)) (f : jf) : Prop :=
  (forall d, assocd (jf_name f) kvs = Some d -> is_Some (decode (jf_type f) (zero_of f) d)) /\ is_Some (marshal (jf_type f) (val kvs f)).
Lemma zero_struct fs : zero (YStruct fs) = VStruct (map zero_of fs).
Proof. cbn. f_equal. apply map_ext. by intros []. Qed.
Lemma decode_struct fs kvs vs : decode (YStruct fs) (VStruct vs) (JObj kvs) = VStruct <$> set_members o_fold (map dec_of fs) kvs vs.
Proof. cbn. do 2 f_equal. Qed.
Fixpoint go_marshal (fs : list jf) (vs : list gv) : option (list (string * json)) :=
  match fs, vs with
  | [], [] => Some []
  | JF n oe oz t :: fs', v :: vs' =>
    match go_marshal fs' vs' with
    | None => None
    | Some r => if (oe && is_empty v) || (oz && is_zero v) then Some r
                else match marshal t v with Some e => Some ((n, e) :: r) | None => None end
    end
  | _, _ => None
  end.
Lemma marshal_struct fs vs : marshal (YStruct fs) (VStruct vs) = JObj <$> go_marshal fs vs.
Proof. reflexivity. Qed.
Lemma marshal_zero y : is_Some (marshal y (zero y)).
Proof.
  revert y. fix IH 1. intros y. destruct y as [| | | | | |t|t|fs]; try (by eexists).
  rewrite zero_struct, marshal_struct. assert (H : is_Some (go_marshal fs (map zero_of fs))); [|by destruct H as [l ->]; eexists].
  induction fs as [|[n oe oz t] fs IHf]; [by eexists|]. cbn. destruct IHf as [l ->]. unfold zero_of. cbn [jf_type].
  destruct ((oe && is_empty (zero t)) || (oz && is_zero (zero t))); [by eexists|]. destruct (IH t) as [e ->]. by eexists.
Qed.
Lemma zero_is_zero y : is_zero (zero y) = true.
Proof.
  revert y. fix IH 1. intros y. destruct y as [| | | | | |t|t|fs]; [reflexivity..|]. rewrite zero_struct. cbn. induction fs as [|[n oe oz t] fs IHf]; [done|].
  cbn. rewrite IHf, andb_true_r. apply IH.
Qed.
Lemma go_marshal_cons f fs v vs : go_marshal (f :: fs) (v :: vs) =
  match go_marshal fs vs with
  | None => None
  | Some r => if omitted f v then Some r else match marshal (jf_type f) v with Some e => Some ((jf_name f, e) :: r) | None => None end
  end.
Proof. by destruct f. Qed.
Lemma go_marshal_ok kvs fs : Forall (okf kvs) fs -> go_marshal fs (map (val kvs) fs) = Some (flat_map (out kvs) fs).
Proof.
  induction 1 as [|f fs [_ Hm] _ IH]; [done|]. cbn [map]. rewrite go_marshal_cons, IH. cbn [flat_map]. destruct Hm as [e He].
  assert (Eo : out kvs f = if omitted f (val kvs f) then [] else [(jf_name f, e)]) by (unfold out; by rewrite He). rewrite Eo, He. by destruct (omitted f (val kvs f)).
Qed.
Lemma struct_marshal kvs fs : Forall (okf kvs) fs -> marshal (YStruct fs) (VStruct (map (val kvs) fs)) = Some (JObj (flat_map (out kvs) fs)).
Proof. intros H. by rewrite marshal_struct, go_marshal_ok. Qed.

(** ** reading members *)
Lemma index_some p l i : index_of p l = Some i -> exists x, l !! i = Some x /\ p x = true.
Proof.
  revert i. induction l as [|x l IH]; intros i; [done|]. cbn. destruct (p x) eqn:E; [intros [= <-]; by exists x|].
  destruct (index_of p l) as [j|]; [|done]. cbn. intros [= <-]. by apply IH.
Qed.
Lemma index_none p l : index_of p l = None -> forall x, x ∈ l -> p x = false.
Proof.
  induction l as [|x l IH]; [intros _ y Hy; by apply elem_of_nil in Hy|]. cbn. destruct (p x) eqn:E; [done|]. destruct (index_of p l) as [j|]; [done|].
  intros _ y [->|Hy]%elem_of_cons; [done|]. by apply IH.
Qed.
Lemma find_own names k i : NoDup names -> names !! i = Some k -> find_field o_fold names k = Some i.
Proof.
  intros Hnd Hi. unfold find_field. destruct (index_of (fun n => bool_decide (n = k)) names) as [j|] eqn:E.
  - apply index_some in E as (x & Hx & ->%bool_decide_eq_true). f_equal. by eapply NoDup_lookup.
  - apply index_none with (x := k) in E; [|by eapply elem_of_list_lookup_2]. by rewrite bool_decide_eq_true_2 in E.
Qed.
Lemma find_none names k : k ∉ names -> (forall n, n ∈ names -> fold_name o_fold n <> fold_name o_fold k) -> find_field o_fold names k = None.
Proof.
  intros Hk Hf. unfold find_field. destruct (index_of (fun n => bool_decide (n = k)) names) as [j|] eqn:E.
  { apply index_some in E as (x & Hx & ->%bool_decide_eq_true). destruct Hk. by eapply elem_of_list_lookup_2. }
  clear E. destruct (index_of _ names) as [j|] eqn:E; [|done]. apply index_some in E as (x & Hx & H%bool_decide_eq_true). exfalso. eapply Hf; [|exact H]. by eapply elem_of_list_lookup_2.
Qed.
Lemma set_members_ok fs : NoDup (map jf_name fs) -> forall kvs vs, NoDup kvs.*1 -> length vs = length fs ->
  (forall f k, f ∈ fs -> k ∈ kvs.*1 -> fold_name o_fold (jf_name f) = fold_name o_fold k -> jf_name f = k) ->
  (forall f d, f ∈ fs -> assocd (jf_name f) kvs = Some d -> is_Some (decode (jf_type f) (zero_of f) d)) ->
  (forall i f, fs !! i = Some f -> jf_name f ∈ kvs.*1 -> vs !! i = Some (zero_of f)) ->
  exists vs', set_members o_fold (map dec_of fs) kvs vs = Some vs' /\ length vs' = length fs /\
    forall i f, fs !! i = Some f -> vs' !! i = if decide (jf_name f ∈ kvs.*1) then Some (val kvs f) else vs !! i.
Proof.
  intros Hnd. induction kvs as [|[k d] kvs IH]; intros vs Hk Hl Hf Hd Hz.
  { exists vs. split_and!; [done|done|]. intros i f Hi. rewrite decide_False; [done|]. apply not_elem_of_nil. }
  cbn [fmap list_fmap fst] in Hk. apply NoDup_cons in Hk as [Hk Hnk]. cbn [set_members].
  assert (En : map fst (map dec_of fs) = map jf_name fs) by (rewrite map_map; apply map_ext; by intros []). rewrite En.
  destruct (decide (k ∈ map jf_name fs)) as [Hin|Hin].
  - apply elem_of_list_lookup in Hin as [i Hi]. rewrite (find_own _ _ i) by done. change (map jf_name fs) with (jf_name <$> fs) in Hi. rewrite list_lookup_fmap in Hi. destruct (fs !! i) as [f|] eqn:Ef; [|done]. cbn in Hi. injection Hi as Hn.
    assert (Hff : f ∈ fs) by (by eapply elem_of_list_lookup_2).
    change (map dec_of fs) with (dec_of <$> fs) at 1. rewrite list_lookup_fmap, Ef. cbn [fmap option_fmap option_map].
    assert (Ed : dec_of f = (jf_name f, fun c x => decode (jf_type f) c x)) by (by destruct f). rewrite Ed.
    assert (Ez : vs !! i = Some (zero_of f)) by (apply (Hz i f Ef); rewrite Hn; left). rewrite Ez. cbn beta iota.
    destruct (Hd f d Hff) as [v Hv]; [cbn; by rewrite Hn, decide_True|]. rewrite Hv.
    destruct (IH (<[i:=v]> vs)) as (vs' & Hs & Hl' & Hvs'); [done|by rewrite insert_length| | | |].
    + intros g k' Hg Hk'. apply Hf; [done|]. by right.
    + intros g d' Hg Hgd. apply Hd; [done|]. cbn. rewrite decide_False; [done|]. intros E. apply Hk. rewrite E. apply assocd_elem in Hgd. apply elem_of_list_fmap. by exists (jf_name g, d').
    + intros j g Hg Hgk. rewrite list_lookup_insert_ne; [apply Hz; [done|by right]|]. intros <-. rewrite Ef in Hg. injection Hg as <-. by rewrite Hn in Hgk.
    + exists vs'. split_and!; [done|done|]. intros j g Hg. rewrite (Hvs' j g Hg). destruct (decide (i = j)) as [<-|Hij].
      * rewrite Ef in Hg. injection Hg as <-. rewrite decide_False by (by rewrite Hn). rewrite decide_True by (rewrite Hn; left). rewrite list_lookup_insert by (apply lookup_lt_Some in Ez; done).
        unfold val. cbn. rewrite decide_True by done. by rewrite Hv.
      * assert (Hne : jf_name g <> k).
        { intros E. apply Hij. eapply NoDup_lookup; [exact Hnd|change (map jf_name fs) with (jf_name <$> fs); rewrite list_lookup_fmap, Ef; reflexivity|change (map jf_name fs) with (jf_name <$> fs); rewrite list_lookup_fmap, Hg; cbn; congruence]. }
        rewrite list_lookup_insert_ne by done.
        assert (Ev : val ((k, d) :: kvs) g = val kvs g) by (unfold val; cbn; by rewrite decide_False). rewrite Ev.
        destruct (decide (jf_name g ∈ kvs.*1)) as [Hy|Hy]; [rewrite decide_True; [done|by right]|]. rewrite decide_False; [done|]. cbn. by intros [?|?]%elem_of_cons.
  - rewrite find_none; [|done|].
    2:{ intros n Hn E. apply Hin. apply elem_of_list_In, in_map_iff in Hn as (f & <- & Hfi%elem_of_list_In). apply elem_of_list_In, in_map_iff. exists f. split; [|by apply elem_of_list_In]. apply Hf; [done|left|done]. }
    assert (Hne : forall f, f ∈ fs -> jf_name f <> k) by (intros f Hfi <-; apply Hin; apply elem_of_list_In, in_map_iff; exists f; split; [done|by apply elem_of_list_In]).
    destruct (IH vs) as (vs' & Hs & Hl' & Hvs'); [done|done| | | |].
    + intros g k' Hg Hk'. apply Hf; [done|]. by right.
    + intros g d' Hg Hgd. apply Hd; [done|]. cbn. rewrite decide_False; [done|]. intros E. by apply (Hne g Hg).
    + intros j g Hg Hgk. apply Hz; [done|by right].
    + exists vs'. split_and!; [done|done|]. intros j g Hg. rewrite (Hvs' j g Hg). assert (Hg' : jf_name g <> k) by (apply Hne; by eapply elem_of_list_lookup_2).
      assert (Ev : val ((k, d) :: kvs) g = val kvs g) by (unfold val; cbn; by rewrite decide_False). rewrite Ev.
      destruct (decide (jf_name g ∈ kvs.*1)) as [Hy|Hy]; [rewrite decide_True; [done|by right]|]. rewrite decide_False; [done|]. cbn. by intros [?|?]%elem_of_cons.
Qed.
Lemma struct_decode fs kvs : NoDup (map jf_name fs) -> NoDup kvs.*1 -> Forall (okf kvs) fs ->
  (forall f k, f ∈ fs -> k ∈ kvs.*1 -> fold_name o_fold (jf_name f) = fold_name o_fold k -> jf_name f = k) ->
  decode (YStruct fs) (zero (YStruct fs)) (JObj kvs) = Some (VStruct (map (val kvs) fs)).
Proof.
  intros Hnd Hk Hok Hf. rewrite zero_struct, decode_struct.
  destruct (set_members_ok fs Hnd kvs (map zero_of fs) Hk) as (vs & -> & Hl & Hvs).
  - by rewrite map_length.
  - done.
  - intros f d Hfi. rewrite Forall_forall in Hok. by apply Hok.
  - intros i f Hi _. change (map zero_of fs) with (zero_of <$> fs). by rewrite list_lookup_fmap, Hi.
  - cbn. do 2 f_equal. apply list_eq. intros i. change (map (val kvs) fs) with (val kvs <$> fs). rewrite list_lookup_fmap. destruct (fs !! i) as [f|] eqn:E; cbn.
    + rewrite (Hvs i f E). destruct (decide (jf_name f ∈ kvs.*1)) as [_|Hn]; [done|]. change (map zero_of fs) with (zero_of <$> fs). rewrite list_lookup_fmap, E. cbn. unfold val. by rewrite (proj2 (assocd_none _ _)).
    + apply lookup_ge_None_2. rewrite Hl. by apply lookup_ge_None in E.
Qed.
End shape.
