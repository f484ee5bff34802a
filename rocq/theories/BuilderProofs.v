(** The packet builder: what is built, for all histories of [serialize_arg] calls. *)
From Verif Require Export SpecBuild EngineProofs SocketProofs BinProofs ScanProofs.

(** ** Steps of the builder *)
Lemma kept_cons v l : kept (v :: l) = if serialises v then v :: kept l else kept l.
Proof. reflexivity. Qed.
Lemma serialises_spec v : serialises v = true <-> json_of v <> None.
Proof. unfold serialises. destruct (json_of v); split; congruence. Qed.
Lemma oc_serialises v oc : (oc = OOk <-> json_of v <> None) -> oc <> OPanic ->
  oc = if serialises v then OOk else OErr.
Proof.
  intros H Hp. rewrite <- serialises_spec in H. destruct (serialises v).
  - apply H. reflexivity.
  - destruct oc; [exfalso; destruct H as [H _]; specialize (H eq_refl); discriminate|reflexivity|congruence].
Qed.
Definition mark (first : bool) : bytes := if first then ["["%byte] else [","%byte].

Lemma normal_step B f v : exists t, serialize_arg (Builder B ANormal f) v =
    (if serialises v then (Builder (B ++ mark f ++ t) ANormal false, Ok tt)
     else (Builder B ANormal false, Err JsonSerError)) /\
    (serialises v = true -> wr v t OOk).
Proof.
  destruct (writer_ok v) as (t & oc & H). pose proof H as (H1 & H2 & H3 & _).
  pose proof (oc_serialises v oc H3 H2) as E. exists t. split.
  - unfold serialize_arg. cbn [b_buffer b_approach b_first]. rewrite H1, E. destruct (serialises v).
    + rewrite <- app_assoc. reflexivity.
    + rewrite <- app_assoc, firstn_app, firstn_all, Nat.sub_diag. cbn [firstn]. rewrite app_nil_r. reflexivity.
  - intros Hs. rewrite Hs in E. subst oc. exact H.
Qed.
Lemma binary_step B k ns id A f v : exists t, serialize_arg (Builder B (ABinary k ns id A) f) v =
    (if serialises v then (Builder (B ++ mark f ++ t) (ABinary k ns id (A ++ map frame (blobs v))) false, Ok tt)
     else (Builder B (ABinary k ns id A) false, Err JsonSerError)) /\
    (serialises v = true -> bwr v (length A) t (map frame (blobs v)) OOk).
Proof.
  destruct (binary_writer_ok v (length A)) as (t & atts & oc & H). pose proof H as (H1 & H2 & H3 & H4 & _).
  pose proof (oc_serialises v oc H3 H2) as E. exists t. split.
  - unfold serialize_arg. cbn [b_buffer b_approach b_first]. rewrite H1 by reflexivity. cbn [fst snd]. rewrite E.
    destruct (serialises v).
    + rewrite <- app_assoc, (H4 E). reflexivity.
    + rewrite <- app_assoc, firstn_app, firstn_all, Nat.sub_diag. cbn [firstn]. rewrite app_nil_r.
      rewrite firstn_app, firstn_all, Nat.sub_diag. cbn [firstn]. rewrite app_nil_r. reflexivity.
  - intros Hs. rewrite Hs in E. subst oc. rewrite (H4 eq_refl) in H. exact H.
Qed.

(** ** Histories *)
Definition written (bin : bool) (l : list sval) (ts : list bytes) : Prop :=
  if bin then blist 0 l ts else Forall2 (fun v t => wr v t OOk) l ts.
(** The text after the header, without the closing bracket, and whether nothing was attempted. *)
Definition opening (l : list sval) (ts : list bytes) : bytes :=
  match l with
  | [] => []
  | v :: _ => if serialises v then "["%byte :: seps true ts else seps false ts
  end.
Lemma serialize_args_cons b v l : serialize_args b (v :: l) = serialize_args (fst (serialize_arg b v)) l.
Proof. reflexivity. Qed.
Lemma normal_args l : forall B, exists ts,
  serialize_args (Builder B ANormal false) l = Builder (B ++ seps false ts) ANormal false /\
  Forall2 (fun v t => wr v t OOk) (kept l) ts.
Proof.
  induction l as [|v l IH]; intros B.
  { exists []. cbn. rewrite app_nil_r. auto. }
  rewrite serialize_args_cons, kept_cons. destruct (normal_step B false v) as (t & E & W). rewrite E.
  destruct (serialises v); cbn [fst].
  - destruct (IH (B ++ mark false ++ t)) as (ts & E2 & F). rewrite E2. exists (t :: ts).
    cbn [seps comma_unless]. rewrite <- !app_assoc. split; [reflexivity|]. constructor; auto.
  - destruct (IH B) as (ts & E2 & F). exists ts. auto.
Qed.
Lemma normal_history l B : exists ts,
  serialize_args (Builder B ANormal true) l =
    Builder (B ++ opening l ts) ANormal (match l with [] => true | _ => false end) /\
  Forall2 (fun v t => wr v t OOk) (kept l) ts.
Proof.
  destruct l as [|v l].
  { exists []. cbn. rewrite app_nil_r. auto. }
  rewrite serialize_args_cons, kept_cons. destruct (normal_step B true v) as (t & E & W). rewrite E. unfold opening.
  destruct (serialises v); cbn [fst].
  - destruct (normal_args l (B ++ mark true ++ t)) as (ts & E2 & F). rewrite E2. exists (t :: ts).
    cbn [seps comma_unless mark app]. rewrite <- !app_assoc. cbn [app]. rewrite <- ?app_assoc.
    split; [reflexivity|]. constructor; auto.
  - destruct (normal_args l B) as (ts & E2 & F). exists ts. auto.
Qed.
Lemma binary_args k ns id l : forall B A, exists ts,
  serialize_args (Builder B (ABinary k ns id A) false) l =
    Builder (B ++ seps false ts) (ABinary k ns id (A ++ map frame (flat_map blobs (kept l)))) false /\
  blist (length A) (kept l) ts.
Proof.
  induction l as [|v l IH]; intros B A.
  { exists []. cbn. rewrite !app_nil_r. split; [reflexivity|constructor]. }
  rewrite serialize_args_cons, kept_cons. destruct (binary_step B k ns id A false v) as (t & E & W). rewrite E.
  destruct (serialises v); cbn [fst].
  - destruct (IH (B ++ mark false ++ t) (A ++ map frame (blobs v))) as (ts & E2 & F). rewrite E2. exists (t :: ts).
    cbn [seps comma_unless flat_map]. rewrite map_app, <- !app_assoc. split; [reflexivity|]. constructor; auto.
    rewrite app_length, map_length in F. exact F.
  - destruct (IH B A) as (ts & E2 & F). exists ts. auto.
Qed.
Lemma binary_history k ns id l : exists ts,
  serialize_args (Builder [] (ABinary k ns id []) true) l =
    Builder (opening l ts) (ABinary k ns id (map frame (flat_map blobs (kept l)))) (match l with [] => true | _ => false end) /\
  blist 0 (kept l) ts.
Proof.
  destruct l as [|v l].
  { exists []. cbn. split; [reflexivity|constructor]. }
  rewrite serialize_args_cons, kept_cons. destruct (binary_step [] k ns id [] true v) as (t & E & W). rewrite E. unfold opening.
  destruct (serialises v); cbn [fst].
  - destruct (binary_args k ns id l ([] ++ mark true ++ t) ([] ++ map frame (blobs v))) as (ts & E2 & F). rewrite E2.
    exists (t :: ts). cbn [seps comma_unless mark app flat_map]. rewrite map_app, <- ?app_assoc. cbn [app].
    split; [reflexivity|]. constructor; auto. cbn [app] in F. rewrite map_length in F. exact F.
  - destruct (binary_args k ns id l [] []) as (ts & E2 & F). exists ts. auto.
Qed.

(** ** The finished packet *)
Definition arg_text (l : list sval) (ts : list bytes) : option bytes :=
  match l with [] => None | _ => Some (opening l ts ++ ["]"%byte]) end.
Definition out_blobs (bin : bool) (l : list sval) : list bytes :=
  if bin then flat_map blobs (kept l) else [].
Definition out_wire (s : source) (ns : bytes) (bin : bool) (l : list sval) (ts : list bytes) : wire :=
  Wire (out_kind s bin) (if bin then Some (N.of_nat (length (out_blobs bin l))) else None) (ns_opt ns) (src_id s)
    (arg_text l ts).

Definition src_skind (s : source) : skind := match s with OfEvent _ _ => SKEvent | OfAck _ => SKAck end.
Definition start (s : source) (ns : bytes) (bin : bool) : builder := builder_new ns (src_id s) bin (src_skind s).
Lemma fresh_start s ns bin : exists b, fresh s ns bin = Some b /\
  forall args, serialize_args b args = serialize_args (start s ns bin) (all_args s args).
Proof.
  destruct s as [e i|i]; cbn [fresh all_args]; [|eexists; split; reflexivity].
  unfold new_event, start. cbn [src_id src_skind]. setoid_rewrite serialize_args_cons.
  unfold builder_new. destruct bin; cbn [negb].
  - destruct (binary_step [] PKBinaryEvent ns i [] true (SStr e)) as (t & E & _). rewrite E.
    cbn [serialises json_of fst]. eexists. split; reflexivity.
  - destruct (normal_step (serialize_header PKEvent None ns i) true (SStr e)) as (t & E & _). rewrite E.
    cbn [serialises json_of fst]. eexists. split; reflexivity.
Qed.
Lemma kind_char_digit k : kind_char k = type_digit k.
Proof. destruct k; reflexivity. Qed.
Lemma header_text k c ns id rest : serialize_header k c ns id ++ opt_text (fun a => a) rest =
  "4"%byte :: wire_text (Wire k c (ns_opt ns) id rest).
Proof.
  unfold serialize_header, wire_text, ns_opt. cbn [w_kind w_count w_ns w_id w_args]. rewrite kind_char_digit.
  destruct c, (bytes_eqb ns (bs "/")), id; cbn [opt_text app]; rewrite <- ?app_assoc; reflexivity.
Qed.
Lemma package_header t : package_message ("4"%byte :: t) = Some (WText ("4"%byte :: t)).
Proof. reflexivity. Qed.

Theorem build_shape s ns bin args : exists ts,
  build s ns bin args =
    Some (WText ("4"%byte :: wire_text (out_wire s ns bin (all_args s args) ts)) ::
          map frame (out_blobs bin (all_args s args))) /\
  written bin (kept (all_args s args)) ts.
Proof.
  unfold build. destruct (fresh_start s ns bin) as (b & -> & Eb). rewrite Eb. set (l := all_args s args).
  unfold start, builder_new. destruct bin; cbn [negb].
  - destruct (binary_history (match src_skind s with SKEvent => PKBinaryEvent | SKAck => PKBinaryAck end) ns (src_id s) l) as (ts & E & W).
    rewrite E. exists ts. split; [|exact W]. unfold finish. cbn [b_buffer b_approach b_first]. rewrite map_length.
    replace (opening l ts ++ (if match l with [] => true | _ :: _ => false end then [] else ["]"%byte]))
      with (opt_text (fun a => a) (arg_text l ts)) by (destruct l; reflexivity).
    rewrite header_text, package_header. unfold out_wire, out_blobs. destruct s; reflexivity.
  - set (h := serialize_header _ None ns (src_id s)).
    destruct (normal_history l h) as (ts & E & W).
    rewrite E. exists ts. split; [|exact W]. unfold finish. cbn [b_buffer b_approach b_first]. rewrite <- app_assoc.
    replace (opening l ts ++ (if match l with [] => true | _ :: _ => false end then [] else ["]"%byte]))
      with (opt_text (fun a => a) (arg_text l ts)) by (destruct l; reflexivity).
    unfold h. rewrite header_text, package_header. unfold out_wire, out_blobs. destruct s; reflexivity.
Qed.
