(** Vocabulary for concurrent calls of one Transformer. *)
From stdpp Require Import strings list gmap.
From Coq Require Import ZArith.
From Verif Require Import GoStr Val Conv Instr Heap Schema Build Api SpecPath Den SpecSchema SpecProj SpecRun Conc.

(** a call of the API as the program its goroutine runs *)
Definition pcall (W : oracles) (E : env) (f : fmt) (i : itr) (c : call) : prog tree :=
  match c with
  | Validated raw => ptransform W E f i raw
  | Unvalidated raw => pbase W E f i raw
  end.
(** [during W E f i s0 cs s ps]: a moment in the life of a Transformer [i] that was new in [s0] and on which the calls
    [cs] are made, each by a goroutine of its own, in any interleaving of their accesses to memory; goroutine [j] has
    still [ps !! j] to do. (That a call is made after another has returned is one of the interleavings.) *)
Definition during (W : oracles) (E : env) (f : fmt) (i : itr) (s0 : st) (cs : list call) (s : st) (ps : list (prog tree)) : Prop :=
  rtc turn (s0, pcall W E f i <$> cs) (s, ps).
(** the goroutine has returned *)
Definition returned {A} (p : prog A) (r : res A) : Prop := p = PRet r.

(** Schemas that give calls nothing to share that a call changes: `last` has at most one entry, and either the only
    defaults are scalars and empty arrays, or they are scalars and arrays of scalars and, for JSON, no array lies in
    an array. *)
Definition one_last (W : oracles) (tid : string) (r : tree) : Prop :=
  forall t delim from, jlookup "transform" r ≫= jlookup tid = Some t -> dec_tis W t = Ok (MLast, delim, from) -> length from <= 1.
Definition scalar_default (r : tree) : Prop := exists sc, dflt_of r = TS sc.
Definition array_default (r : tree) : Prop := exists ss, dflt_of r = TArr (TS <$> ss).
Definition unchanging (f : fmt) (props : option (list (string * tree))) (items : option tree) : Prop :=
  well_named props items /\
  (f = FJson -> forall σ r nl, sinst (default [] props) items σ r -> field_type r = Ok ("array", nl) -> Star ∉ σ) /\
  forall σ r, sinst (default [] props) items σ r -> scalar_default r \/ array_default r.
Definition apart (W : oracles) (tid : string) (f : fmt) (props : option (list (string * tree))) (items : option tree) : Prop :=
  (forall σ r, sinst (default [] props) items σ r -> one_last W tid r) /\
  ((forall σ r, sinst (default [] props) items σ r -> scalar_default r \/ dflt_of r = TArr []) \/ unchanging f props items).
