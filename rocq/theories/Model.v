(** evaluation/mining.go and evaluation/evaluation.go: mining models, NewModel,
    and the four methods of the Model interface. *)
From Verif Require Import Base Strconv Value Doc Expr Pred Tree Regression.

(** MiningModel, mining.go:9-24, without segmodels.  [em_segs] is
    model.Segmentation.Segments.  [em_rounds] is not in the code: how many
    segment models each Compile appended, so that the segment of each is known. *)
Record emining : Type := EMining_ {
  em_validated : bool; em_compiled : bool;
  em_dd : list data_field; em_hdr : mining_header; em_segs : list (segment doc_model);
  em_defaults : row; em_ft : fieldtypes; em_target : string;
  em_outputs : list output_field; em_targets : list target; em_rounds : list nat }.

(** The Model interface values, evaluation.go:12-17. *)
Inductive emodel : Type :=
| ETree (t : etree)
| EMining (h : emining) (segmodels : list emodel)
| ERegr (x : eregr).

(** MiningModel.Validate, mining.go:49-68; an empty method becomes "sum". *)
Definition method_ok (s : string) : bool :=
  (s =s "average") || (s =s "modelChain") || (s =s "sum") || (s =s "selectFirst").

Definition set_method (h : mining_header) (s : string) : mining_header :=
  MiningHeader (mm_function h) s (mm_lt h) (mm_schema h) (mm_output h) (mm_targets h)
               (mm_verification h).

Definition bad_feature (o : output_field) : bool :=
  negb (of_feature o =s "") && negb (of_feature o =s "probability").

Definition mining_validate (m : emining) : res unit * emining :=
  let h := em_hdr m in
  let h' := if mm_method h =s "" then set_method h "sum" else h in
  let m' v := EMining_ v (em_compiled m) (em_dd m) h' (em_segs m) (em_defaults m) (em_ft m)
                       (em_target m) (em_outputs m) (em_targets m) (em_rounds m) in
  if negb (method_ok (mm_method h'))
  then (Err (EMultipleModelMethod (mm_method h')), m' (em_validated m))
  else match List.find bad_feature (mm_output h') with
       | Some o => (Err (EOutputFeature (of_feature o)), m' (em_validated m))
       | None => (Ok tt, m' true)
       end.

(** m.defaultValues, mining.go:74-83. *)
Definition default_values (l : list mining_field) : row :=
  foldl (λ m f, match mf_replacement f with
                | Some s => <[mf_name f := GStr s]> m
                | None => m
                end) ∅ l.

(** The first part of MiningModel.Compile, mining.go:71-97; the second
    component is the extended transformation dictionary. *)
Definition mining_prepare (td : list derived_field) (m : emining)
    : emining * list derived_field :=
  let h := em_hdr m in
  let td' := td ++ mm_lt h in
  (EMining_ (em_validated m) (em_compiled m) (em_dd m) h (em_segs m)
            (default_values (mm_schema h)) (field_types (em_dd m) td')
            (target_of (em_target m) (mm_schema h)) (mm_output h) (mm_targets h) (em_rounds m), td').

Definition mining_compiled (m : emining) : emining :=
  EMining_ (em_validated m) true (em_dd m) (em_hdr m) (em_segs m) (em_defaults m) (em_ft m)
           (em_target m) (em_outputs m) (em_targets m) (em_rounds m).
Definition add_round (n : nat) (m : emining) : emining :=
  EMining_ (em_validated m) (em_compiled m) (em_dd m) (em_hdr m) (em_segs m) (em_defaults m) (em_ft m)
           (em_target m) (em_outputs m) (em_targets m) (em_rounds m ++ [n]).

(** The loop mining.go:99-112 over the segments, appending to segmodels; [nm]
    is NewModel on the shared dictionaries. *)
Definition compile_segments
    (nm : list derived_field → doc_model → res emodel * list derived_field)
    : list derived_field → list emodel → list (segment doc_model) →
      res unit * list emodel * list derived_field :=
  fix go td acc segs :=
    match segs with
    | [] => (Ok tt, acc, td)
    | Segment _ _ models :: segs' =>
        match models with
        | [d] =>
            match nm td d with
            | (Ok e, td') => go td' (acc ++ [e]) segs'
            | (Err e, td') => (Err e, acc, td')
            | (Panic p, td') => (Panic p, acc, td')
            end
        | _ => (Err (ESegmentSize (length models)), acc, td)
        end
    end.

(** The evaluator NewMiningModel starts from, mining.go:27-30. *)
Definition mining_fresh (dd : list data_field) (h : mining_header)
    (segs : list (segment doc_model)) : emining :=
  EMining_ false false dd h segs ∅ ∅ "" [] [] [].

(** NewModel, evaluation.go:19-30, with NewMiningModel, mining.go:26-43, and
    NewRegressionModel, regression.go:20-27, in place.  Returns the shared
    transformation dictionary as well. *)
Fixpoint new_model (E : Ext) (dd : list data_field) (td : list derived_field) (d : doc_model)
    {struct d} : res emodel * list derived_field :=
  match d with
  | DTree t =>
      match new_tree_model E dd td t with
      | (Ok e, td') => (Ok (ETree e), td')
      | (Err e, td') => (Err e, td')
      | (Panic p, td') => (Panic p, td')
      end
  | DMining h segs =>
      match mining_validate (mining_fresh dd h segs) with
      | (Ok _, m1) =>
          let '(m2, td1) := mining_prepare td m1 in
          match compile_segments (new_model E dd) td1 [] segs with
          | (Ok _, sm, td2) => (Ok (EMining (add_round (length sm) (mining_compiled m2)) sm), td2)
          | (Err e, _, td2) => (Err e, td2)
          | (Panic p, _, td2) => (Panic p, td2)
          end
      | (Err e, _) => (Err e, td)
      | (Panic p, _) => (Panic p, td)
      end
  | DRegr r => (Ok (ERegr (ERegr_ r)), td)
  | DOther k => (Err (EInvalidModelType k), td)
  end.

(** An evaluator after NewModel was called again on the document it was built
    from, with the dictionaries [dd] and [td]: its predicates are the document's.
    Also whether that NewModel succeeded, and the dictionary afterwards.  A
    nested mining model has the segment models of one Compile. *)
Definition touch_models (f : list derived_field → emodel → bool * emodel * list derived_field)
    : list derived_field → list emodel → bool * list emodel * list derived_field :=
  fix go td sm :=
    match sm with
    | [] => (true, [], td)
    | s :: sm' =>
        match f td s with
        | (true, s', td') => let '(ok, sm2, td2) := go td' sm' in (ok, s' :: sm2, td2)
        | (false, s', td') => (false, s' :: sm', td')
        end
    end.

Fixpoint touch (E : Ext) (dd : list data_field) (td : list derived_field) (e : emodel)
    : bool * emodel * list derived_field :=
  match e with
  | ETree t =>
      let td' := td ++ tm_lt (et_model t) in
      let '(ok, root) := touch_node E (field_types dd td') (et_root t) in
      (ok, ETree (ETree_ (et_validated t) (et_compiled t) (et_dd t) (et_model t) (et_ft t) root
                         (et_outkeys t) (et_target t)), td')
  | EMining h sm =>
      let '(ok, sm', td') := touch_models (touch E dd) (td ++ mm_lt (em_hdr h)) sm in
      (ok, EMining h sm', td')
  | ERegr _ => (true, e, td)
  end.

(** the segment models of earlier Compile calls, while Compile runs again *)
Fixpoint touch_rounds (E : Ext) (dd : list data_field) (td : list derived_field)
    (rounds : list nat) (sm : list emodel) : list emodel :=
  match rounds with
  | [] => sm
  | n :: rounds' =>
      (touch_models (touch E dd) td (take n sm)).1.2 ++ touch_rounds E dd td rounds' (drop n sm)
  end.

(** Model.Compile on an existing evaluator: tree.go:676, mining.go:70-117 (the
    segment models are appended to those already there), regression.go:29. *)
Definition model_compile (E : Ext) (td : list derived_field) (e : emodel)
    : res unit * emodel * list derived_field :=
  match e with
  | ETree t =>
      match tree_compile E td t with (o, t', td') => (o, ETree t', td') end
  | EMining m sm =>
      let '(m2, td1) := mining_prepare td m in
      let old := touch_rounds E (em_dd m) td1 (em_rounds m) sm in
      match compile_segments (new_model E (em_dd m)) td1 [] (em_segs m) with
      | (Ok _, new, td2) =>
          (Ok tt, EMining (add_round (length new) (mining_compiled m2)) (old ++ new), td2)
      | (o, new, td2) => (o, EMining (add_round (length new) m2) (old ++ new), td2)
      end
  | ERegr _ => (Ok tt, e, td)
  end.

(** Model.Validate on an existing evaluator. *)
Definition model_validate (e : emodel) : res unit * emodel :=
  match e with
  | ETree t => match tree_validate t with (o, t') => (o, ETree t') end
  | EMining m sm => match mining_validate m with (o, m') => (o, EMining m' sm) end
  | ERegr x => match regr_validate x with (o, x') => (o, ERegr x') end
  end.

(** imputeMissingValues, mining.go:213-222. *)
Definition impute_step (acc : res datarow) (x : string * value) : res datarow :=
  r <-! acc;
  match dr_get r x.1 with
  | Some v => if is_nil v then dr_set r x.1 x.2 else Ok r
  | None => dr_set r x.1 x.2
  end.

Definition impute (E : Ext) (tk : ticket) (defaults : row) (r : datarow) : res datarow :=
  foldl impute_step (Ok r) (map_range E tk defaults).

(** The outcome of Evaluate: what is returned, the caller's row afterwards, the
    evaluator(s) afterwards. *)
Definition outcome (M : Type) : Type := res datarow * datarow * M.

(** evaluateMultipleModelSelectFirst, mining.go:119-130. *)
Definition select_first {M} (ev : M → datarow → outcome M) (sm : list M) (r : datarow)
    : outcome (list M) :=
  match sm with
  | [] => (Err ENoSegments, r, [])
  | s :: sm' => match ev s r with (o, r', s') => (o, r', s' :: sm') end
  end.

(** for k, v := range lastOut { input[k] = v }, mining.go:136-138. *)
Definition copy_into (E : Ext) (tk : ticket) (last : datarow) (r : datarow) : res datarow :=
  foldl (λ acc '(k, v), r <-! acc; dr_set r k v) (Ok r)
        (map_range E tk (default ∅ last)).

(** evaluateMultipleModelChain, mining.go:132-149; [ev] gets the index of the
    segment for its ticket. *)
Definition chain {M} (E : Ext) (tk : ticket) (ev : nat → M → datarow → outcome M)
    : nat → datarow → list M → datarow → outcome (list M) :=
  fix go i last sm r :=
    match sm with
    | [] => (Ok last, r, [])
    | s :: sm' =>
        match copy_into E (0 :: i :: tk) last r with
        | Ok r1 =>
            match ev i s r1 with
            | (Ok out, r2, s') =>
                match go (S i) out sm' r2 with (o, r3, sm'') => (o, r3, s' :: sm'') end
            | (Err e, r2, s') => (Err e, r2, s' :: sm')
            | (Panic p, r2, s') => (Panic p, r2, s' :: sm')
            end
        | Err e => (Err e, r, s :: sm')
        | Panic p => (Panic p, r, s :: sm')   (* the row is lost with the panic *)
        end
    end.

(** scoreMap after mining.go:152-160. *)
Definition score_init (outs : list output_field) (tgs : list target) : gmap string f64 :=
  foldl (λ m t, <[tg_field t := fzero]> m)
        (foldl (λ m o, <[of_name o := fzero]> m) ∅ outs) tgs.

(** one segment's contribution, mining.go:168-180 *)
Definition score_add (E : Ext) (tk : ticket) (classification : bool) (segout : datarow)
    (sm : gmap string f64) : gmap string f64 :=
  foldl (λ m '(k, v),
           match dr_get segout (if classification then k else "score") with
           | Some x => <[k := fadd v (val_float64 E x)]> m
           | None => m
           end)
        sm (map_range E tk sm).

(** the segment loop mining.go:162-181 *)
Definition sum_segments {M} (E : Ext) (tk : ticket) (classification : bool)
    (ev : nat → M → datarow → outcome M)
    : nat → gmap string f64 → list M → datarow →
      res (gmap string f64) * datarow * list M :=
  fix go i scores sm r :=
    match sm with
    | [] => (Ok scores, r, [])
    | s :: sm' =>
        match ev i s r with
        | (Ok out, r1, s') =>
            match go (S i) (score_add E (1 :: i :: tk) classification out scores) sm' r1 with
            | (o, r2, sm'') => (o, r2, s' :: sm'')
            end
        | (Err e, r1, s') => (Err e, r1, s' :: sm')
        | (Panic p, r1, s') => (Panic p, r1, s' :: sm')
        end
    end.

(** rescaling, mining.go:183-190; reading a missing key of scoreMap gives 0 *)
Definition rescale_step (m : gmap string f64) (t : target) : gmap string f64 :=
  let m1 := match tg_factor t with
            | Some f => <[tg_field t := fmul (default fzero (m !! tg_field t)) f]> m
            | None => m end in
  match tg_constant t with
  | Some c => <[tg_field t := fadd (default fzero (m1 !! tg_field t)) c]> m1
  | None => m1
  end.

(** out, mining.go:192-195 *)
Definition score_out (E : Ext) (tk : ticket) (m : gmap string f64) : row :=
  foldl (λ out '(k, v), <[k := GF64 v]> out) ∅ (map_range E tk m).

(** evaluateMultipleModelSum, mining.go:151-198. *)
Definition sum_models {M} (E : Ext) (tk : ticket) (h : emining)
    (ev : nat → M → datarow → outcome M) (sm : list M) (r : datarow)
    : res row * datarow * list M :=
  match sum_segments E tk (mm_function (em_hdr h) =s "classification") ev 0
          (score_init (em_outputs h) (em_targets h)) sm r with
  | (Ok scores, r1, sm1) =>
      (Ok (score_out E (2 :: tk) (foldl rescale_step scores (em_targets h))), r1, sm1)
  | (Err e, r1, sm1) => (Err e, r1, sm1)
  | (Panic p, r1, sm1) => (Panic p, r1, sm1)
  end.

(** evaluateMultipleModelAverage, mining.go:200-211. *)
Definition average_row (E : Ext) (tk : ticket) (n : nat) (out : row) : row :=
  foldl (λ m '(k, v), <[k := GF64 (fdiv (val_float64 E v) (f64_of_Z (Z.of_nat n)))]> m)
        out (map_range E tk out).

Definition average_models {M} (E : Ext) (tk : ticket) (h : emining)
    (ev : nat → M → datarow → outcome M) (sm : list M) (r : datarow)
    : res row * datarow * list M :=
  match sum_models E tk h ev sm r with
  | (Ok out, r1, sm1) => (Ok (average_row E (3 :: tk) (length (em_segs h)) out), r1, sm1)
  | x => x
  end.

Definition wrap_row {M} (x : res row * datarow * M) : outcome M :=
  match x with
  | (Ok out, r, m) => (Ok (Some out), r, m)
  | (Err e, r, m) => (Err e, r, m)
  | (Panic p, r, m) => (Panic p, r, m)
  end.

(** The switch at mining.go:245-256. *)
Definition run_method {M} (E : Ext) (tk : ticket) (h : emining)
    (ev : nat → M → datarow → outcome M) (sm : list M) (r : datarow) : outcome (list M) :=
  let method := mm_method (em_hdr h) in
  if method =s "average" then wrap_row (average_models E tk h ev sm r)
  else if method =s "sum" then wrap_row (sum_models E tk h ev sm r)
  else if method =s "modelChain" then chain E tk ev 0 (Some ∅) sm r
  else if method =s "selectFirst" then select_first (ev 0) sm r
  else (Err (EMultipleModelMethod method), r, sm).

(** Model.Evaluate: tree.go:712, mining.go:224-257, regression.go:81. *)
Fixpoint evaluate (E : Ext) (tk : ticket) (e : emodel) (r : datarow) {struct e}
    : outcome emodel :=
  match e with
  | ETree t => match tree_evaluate E tk t r with (o, r', t') => (o, r', ETree t') end
  | ERegr x => (regr_evaluate E (er_model x) r, r, e)
  | EMining h sm =>
      if negb (em_validated h) then (Err ENotValidated, r, e)
      else if negb (em_compiled h) then (Err ENotCompiled, r, e)
      else
        match impute E (4 :: tk) (em_defaults h) r with
        | Ok r1 =>
            match handle_input E (mm_lt (em_hdr h)) r1 with
            | (Ok _, r2) =>
                match run_method E tk h (λ i s r, evaluate E (5 :: i :: tk) s r) sm r2 with
                | (o, r3, sm') => (o, r3, EMining h sm')
                end
            | (Err x, r2) => (Err x, r2, e)
            | (Panic p, r2) => (Panic p, r2, e)
            end
        | Err x => (Err x, r, e)
        | Panic p => (Panic p, r, e)
        end
  end.

(** ** Verify: verifyModel, evaluation.go:32-84 *)

(** The loop 40-50: (inputMap, outputMap). *)
Definition ver_maps_step (acc : res (gmap string string * gmap string string)) (f : ver_field)
    : res (gmap string string * gmap string string) :=
  '(ins, outs) <-! acc;
  if negb (String.prefix "data:" (vf_column f)) then Err (EVerPrefix (vf_column f))
  else
    let col := String.substring 5 (String.length (vf_column f) - 5) (vf_column f) in
    match vf_precision f with
    | None => Ok (<[col := vf_field f]> ins, outs)
    | Some _ => Ok (ins, <[col := vf_field f]> outs)
    end.

Definition ver_maps (l : list ver_field) : res (gmap string string * gmap string string) :=
  foldl ver_maps_step (Ok (∅, ∅)) l.

(** The loop 54-59. *)
Definition ver_input (E : Ext) (tk : ticket) (ins : gmap string string)
    (vrow : gmap string string) : row :=
  foldl (λ m '(k, v), match ins !! k with Some _ => <[k := GStr v]> m | None => m end)
        ∅ (map_range E tk vrow).

(** The comparison 75-76. *)
Definition ver_mismatch (expected predicted : f64) : bool :=
  fltb (fmul f1em5 expected) (fabs (fsub expected predicted)).

(** The loop 66-80. *)
Definition ver_check_step (E : Ext) (outs : gmap string string) (output : datarow)
    (acc : res unit) (x : string * string) : res unit :=
  _ <-! acc;
  match outs !! x.1 with
  | None => Ok tt
  | Some fld =>
      match dr_get output fld with
      | None => Err (EVerMissing fld)
      | Some pv =>
          if ver_mismatch (val_float64 E (GStr x.2)) (val_float64 E pv)
          then Err (EVerMismatch x.1) else Ok tt
      end
  end.

(** The loop 52-81 over the rows of the table. *)
Fixpoint ver_rows (E : Ext) (tk : ticket) (ins outs : gmap string string) (i : nat)
    (rows : list (gmap string string)) (m : emodel) : res unit * emodel :=
  match rows with
  | [] => (Ok tt, m)
  | vrow :: rows' =>
      match evaluate E (2 :: i :: tk) m (Some (ver_input E (0 :: i :: tk) ins vrow)) with
      | (Ok output, _, m') =>
          match foldl (ver_check_step E outs output) (Ok tt) (map_range E (1 :: i :: tk) vrow) with
          | Ok _ => ver_rows E tk ins outs (S i) rows' m'
          | Err e => (Err e, m')
          | Panic p => (Panic p, m')
          end
      | (Err e, _, m') => (Err e, m')
      | (Panic p, _, m') => (Panic p, m')
      end
  end.

Definition verify_model (E : Ext) (tk : ticket) (m : emodel) (mv : option verification)
    : res unit * emodel :=
  match mv with
  | None => (Ok tt, m)
  | Some v =>
      match ver_maps (vr_fields v) with
      | Ok (ins, outs) => ver_rows E tk ins outs 0 (vr_rows v) m
      | Err e => (Err e, m)
      | Panic p => (Panic p, m)
      end
  end.

(** Model.Verify: tree.go:708, mining.go:45, regression.go:61. *)
Definition verification_of (m : emodel) : option verification :=
  match m with
  | ETree t => tm_verification (et_model t)
  | EMining h _ => mm_verification (em_hdr h)
  | ERegr x => rm_verification (er_model x)
  end.

Definition model_verify (E : Ext) (tk : ticket) (m : emodel) : res unit * emodel :=
  verify_model E tk m (verification_of m).
