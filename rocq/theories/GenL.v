(** The fields that walking a schema collects. *)
From stdpp Require Import strings list gmap.
From Coq Require Import Ascii ZArith Lia.
From Verif Require Import GoStr GoStrL Val Conv Schema Inst Load SpecPath PathL SpecWalk WalkL SpecGen Gen.

(** ** maps *)
Lemma assocd_put {A} k (v : A) l k' : assocd k' (put k v l) = if decide (k' = k) then Some v else assocd k' l.
Proof.
  induction l as [|[x y] l IH]; cbn.
  - destruct (decide (k = k')) as [->|N]; [by rewrite decide_True|]. by rewrite decide_False.
  - destruct (decide (x = k)) as [->|N]; cbn.
    + destruct (decide (k = k')) as [->|N']; [by rewrite decide_True|]. by rewrite decide_False.
    + rewrite IH. destruct (decide (x = k')) as [->|N']; [|done]. by rewrite decide_False.
Qed.
Lemma put_put {A} k (v v' : A) l : put k v' (put k v l) = put k v' l.
Proof. induction l as [|[x y] l IH]; cbn; [by rewrite decide_True|]. destruct (decide (x = k)) as [->|N]; cbn; [by rewrite decide_True|]. rewrite decide_False by done. by f_equal. Qed.
Lemma put_same {A} k (v : A) l : assocd k l = Some v -> put k v l = l.
Proof. induction l as [|[x y] l IH]; cbn; [done|]. destruct (decide (x = k)) as [->|N]; [by intros [= ->]|]. intros H. f_equal. by apply IH. Qed.
Lemma put_new {A} k (v : A) l : assocd k l = None -> put k v l = l ++ [(k, v)].
Proof. induction l as [|[x y] l IH]; cbn; [done|]. destruct (decide (x = k)) as [->|N]; [done|]. intros H. f_equal. by apply IH. Qed.
Lemma assocd_app {A} k (l l' : list (string * A)) : assocd k (l ++ l') = match assocd k l with Some v => Some v | None => assocd k l' end.
Proof. induction l as [|[x y] l IH]; cbn; [done|]. by destruct (decide (x = k)). Qed.
Lemma assocd_none {A} k (l : list (string * A)) : assocd k l = None <-> k ∉ l.*1.
Proof.
  induction l as [|[x y] l IH]; cbn; [split; [intros _; apply not_elem_of_nil|done]|].
  rewrite not_elem_of_cons. destruct (decide (x = k)) as [->|N]; [split; [done|by intros [[] _]]|]. rewrite IH. split; [done|by intros [_ ?]].
Qed.
Lemma assocd_in {A} k (v : A) l : NoDup l.*1 -> (k, v) ∈ l -> assocd k l = Some v.
Proof.
  induction l as [|[x y] l IH]; intros Hnd Hin; [by apply elem_of_nil in Hin|]. cbn in Hnd. apply NoDup_cons in Hnd as [Hx Hnd]. cbn.
  apply elem_of_cons in Hin as [[= -> ->]|Hin]; [by rewrite decide_True|]. rewrite decide_False; [by apply IH|].
  intros ->. apply Hx. apply elem_of_list_fmap. by exists (k, v).
Qed.
Lemma assocd_elem {A} k (v : A) l : assocd k l = Some v -> (k, v) ∈ l.
Proof. induction l as [|[x y] l IH]; cbn; [done|]. destruct (decide (x = k)) as [->|N]; [intros [= ->]; left|]. intros H. right. by apply IH. Qed.

(** ** paths *)
Definition part (g : string * bool) : string := g.1 +:+ (if g.2 then "[*]" else "").
Definition gpath (gs : list (string * bool)) : list seg := flat_map (fun g : string * bool => Nm g.1 :: if g.2 then [Star] else []) gs.
Lemma gpath_app gs gs' : gpath (gs ++ gs') = gpath gs ++ gpath gs'.
Proof. unfold gpath. by rewrite flat_map_app. Qed.
Lemma segs_gpath gs : segs (gpath gs) = foldr (fun x r => "." +:+ x +:+ r) "" (map part gs).
Proof.
  induction gs as [|[k b] gs IH]; [done|]. cbn [gpath flat_map map foldr]. change (flat_map _ gs) with (gpath gs). rewrite segs_app, IH.
  unfold part. cbn. destruct b; cbn; by rewrite ?sapp_nil_r, ?app_assoc_s.
Qed.
Lemma path_gpath gs : path_of (gpath gs) = join "." ("$" :: map part gs).
Proof. rewrite join_dot_cons. unfold path_of. by rewrite segs_gpath. Qed.
Lemma free_plain k c : str_in (chr c) k = false -> free_of c k = true.
Proof. intros H. rewrite free_of_str_in. by rewrite H. Qed.
Lemma suffix_plain k : str_in "[" k = false -> has_suffix "[*]" k = false.
Proof.
  intros H. apply not_true_is_false. intros [t ->]%has_suffix_spec. assert (Hin : str_in "[" (t +:+ "[*]") = true); [|congruence].
  apply str_in_spec. by exists t, "*]".
Qed.
Lemma substring_app a b : String.substring 0 (String.length a) (a +:+ b) = a.
Proof. induction a as [|c a IH]; [by destruct b|]. rewrite sapp_cons. cbn [String.length String.substring]. f_equal. exact IH. Qed.
Lemma suffix_app a b : has_suffix b (a +:+ b) = true.
Proof. apply has_suffix_spec. by exists a. Qed.
Lemma split_part_part g : field_name g.1 -> split_part (part g) = g.1.
Proof.
  destruct g as [k b]. cbn. intros [(Hd & Hb & Hne) Hk]. unfold split_part, part. cbn. destruct b.
  - rewrite suffix_app, app_length_s. replace (String.length k + String.length "[*]" - 3) with (String.length k) by (cbn; lia). apply substring_app.
  - rewrite sapp_nil_r. by rewrite suffix_plain.
Qed.
Lemma part_not_dollar g : field_name g.1 -> part g <> "$".
Proof.
  destruct g as [k b]. cbn. intros [_ Hk]. unfold part. cbn. destruct b; [|by rewrite sapp_nil_r]. intros H. apply (f_equal String.length) in H.
  rewrite app_length_s in H. cbn in H. lia.
Qed.
Lemma filter_all {A} (P : A -> Prop) `{!forall x, Decision (P x)} l : Forall P l -> filter P l = l.
Proof. induction 1 as [|x l Hx Hl IH]; [done|]. rewrite filter_cons_True by done. by rewrite IH. Qed.
Lemma split_gpath gs : Forall (fun g => field_name g.1) gs -> split_json_path (path_of (gpath gs)) = map fst gs.
Proof.
  intros H. unfold split_json_path. rewrite path_gpath. change "." with (chr "."). rewrite split_join_chr; [|done|].
  - rewrite filter_cons_False by (by intros Hx). rewrite filter_all.
    + rewrite map_map. induction H as [|g gs Hg H IH]; [done|]. cbn. rewrite split_part_part by done. by f_equal.
    + apply Forall_forall. intros x Hx%elem_of_list_In. apply in_map_iff in Hx as (g & <- & Hg). apply part_not_dollar.
      apply elem_of_list_In in Hg. by apply (proj1 (Forall_forall _ _) H).
  - constructor; [done|]. apply Forall_forall. intros x Hx%elem_of_list_In. apply in_map_iff in Hx as (g & <- & Hg%elem_of_list_In).
    destruct (proj1 (Forall_forall _ _) H _ Hg) as [(Hd & _) _]. unfold part. rewrite free_of_app. rewrite (free_plain _ "." Hd). by destruct g.2.
Qed.
