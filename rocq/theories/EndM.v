(** The command for schemas with a broken member. *)
From stdpp Require Import strings list gmap.
From Coq Require Import Ascii Lia.
From Verif Require Import GoStr GoStrL Val Conv Schema Inst Load SpecPath SpecRef SpecDang SpecWhole WalkL Gen Files Gql Avro GoSrc Mapper Whole SpecFlags FlagsL Main SpecMain MainL EndL.
Set Default Proof Using "Type".

Lemma command_broken W F o_abs o_fmt o_quote o_trim o_quote_avro o_unquote o_tag o_types o_gogen o_declared o_join o_msgp ord ord' n fuel og og'
    abs wd base args ss input more inp out b doc i ref name d d' code
    (gen := fun _ _ A pkg sp => run W F o_abs o_fmt o_quote o_trim o_quote_avro o_unquote o_tag o_types o_gogen o_declared o_join o_msgp A pkg ord ord' n fuel og og' sp) :
  options_of args ss (input :: more) -> ~ no_import ss -> abs input = Some inp -> match more with [] => out = "" | output :: _ => abs output = Some out end ->
  asks ss inp out b ->
  f_file F (o_abs inp) = Some doc -> d_inst false doc = Ok i ->
  member (exported W) (fun n => b_structs b !! n) i (o_abs inp) ref name ->
  broken F name (negb (b_embed b)) (if has_prefix "/" ref then o_abs ref else f_rel F inp ref) ->
  main disk abs (build_with wd base gen) args d = Some (d', code) -> code <> 0.
Proof.
  intros Ho Hn Hi Hout Ha Hf Hd Hm Hb Hrun. destruct (main_runs disk abs (build_with wd base gen) args ss input more inp out d Ho Hn Hi Hout) as (b' & Ha' & E).
  rewrite (asks_fun _ _ _ _ _ Ha' Ha) in E. rewrite Hrun in E. destruct Ha as (Hs & _). unfold build_with in E.
  destruct (if decide (b_out b = "") then wd else Some (b_out b)) as [o|]; [|by injection E as _ ->].
  rewrite Hs in E. unfold gen in E.
  destruct (run _ _ _ _ _ _ _ _ _ _ _ _ _ _ (run_args_of b) _ _ _ _ _ _ _ _ _) as [[d1 r]|] eqn:Er; [|done].
  eapply run_broken in Er as [Hr _]; [|exact Hf|exact Hd|exact Hm|exact Hb]. destruct r as [[]| |]; [done|by injection E as _ ->..].
Qed.
