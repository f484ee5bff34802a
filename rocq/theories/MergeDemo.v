(** A packet with values of structs with flattened fields (C88). *)
From Verif Require Export MergeProofs VariantDemo.
From Verif Require Import ReadProofs BuildFacts WriteDemo.
From Coq Require Import Lia.

(** An [id], borrowed bytes, a flattened struct with bytes and an absent note, a flattened map. *)
Definition load_own : list (bytes * ty) := [(bs "id", TyInt 0 255); (bs "raw", TyBytes)].
Definition load_parts : list part := [PStruct [(bs "d", BufferDemo.u8s); (bs "note", TyOption TyString)]; PMap TyBool].
Definition load_vs : list dval := [XInt 7; XBytes (bs "ab")].
Definition load_us : list dval := [XStruct [xy_val; XNone]; XMap [(bs "z", XBool true)]].
Definition load_ovs : list (bytes * sval) := [(bs "id", SU8 x07); (bs "raw", SBytes (bs "ab"))].
Definition load_es : list (list (sval * sval)) := [[(SStr (bs "d"), xy_seq); (SStr (bs "note"), SNone)]; [(SStr (bs "z"), SBool true)]].
(** A map declared before a struct; a map with the name of a field as its key. *)
Definition odd_parts : list part := [PMap TyValue; PStruct [(bs "a", TyInt 0 65535)]].
Definition odd_us : list dval := [XMap [(bs "m", XValue (VBool true))]; XStruct [XInt 1]].
Definition odd_es : list (list (sval * sval)) := [[(SStr (bs "m"), SBool true)]; [(SStr (bs "a"), SInt 1)]].
Definition dup_own : list (bytes * ty) := [(bs "id", TyInt 0 255)].
Definition dup_ovs : list (bytes * sval) := [(bs "id", SU8 x07)].
Definition dup_es : list (list (sval * sval)) := [[(SStr (bs "id"), SBool true)]].

Definition load_src : source := OfEvent (bs "g") None.
Definition load : list sval := [merged load_ovs load_es; merged [] odd_es; merged dup_ovs dup_es].
Definition load_blobs : list bytes := [bs "ab"; bs "xy"].
Definition load_arg : bytes := bs "{""id"":7,""raw"":" ++ num_ph (bs "0") ++ bs ",""d"":" ++ num_ph (bs "1") ++ bs ",""note"":null,""z"":true}".
Definition load_text : bytes := bs "52-[""g""," ++ load_arg ++ bs ",{""m"":true,""a"":1},{""id"":7,""id"":true}]".
Definition load_args : list arg_t := map (fun t => Arg t (map bsub load_blobs)) [bs """g"""; load_arg; bs "{""m"":true,""a"":1}"; bs "{""id"":7,""id"":true}"].
Lemma load_sendable : sendable true load_src (bs "/") load.
Proof.
  split; [apply ns_ok_check; reflexivity|]. split; [exact I|]. split; [exact I|]. split; [|vm_compute; discriminate].
  unfold usable, all_args, load_src, load. repeat apply Forall_cons; try apply Forall_nil; intros _;
    (split; [cbn; intuition (try lia; try reflexivity; try discriminate)|]; vm_compute; repeat constructor; try discriminate).
Qed.
Lemma load_became i v g : made_from load_src load i v -> nth_error load_args i = Some g -> became true load_src (bs "/") load i v g.
Proof.
  intros Hv Hg. split; [exact Hv|]. destruct sample_opened as [Ho Hc].
  destruct (got load_text (bmsgs load_blobs)) as [p|] eqn:E; [|vm_compute in E; discriminate].
  exists [sample_open], (WText ("4"%byte :: load_text) :: map frame load_blobs), p. split; [exact Ho|]. split; [exact Hc|]. split; [vm_compute; reflexivity|]. split.
  - apply (arrives_received [sample_open] load_text load_blobs p Ho Hc). apply got_received. exact E.
  - apply nth_argument. rewrite <- E. clear - Hg. do 4 (destruct i as [|i]; [injection Hg as <-; vm_compute; reflexivity|]). destruct i; discriminate.
Qed.
Ltac distinct := repeat (constructor; [cbn; intuition discriminate|]); constructor.
Lemma load_flat_ok : flat_ok load_own load_parts.
Proof. split; [split; [distinct|cbn; auto]|]. split; [cbn; distinct|]. constructor; [split; [distinct|cbn; auto]|constructor; [exact I|constructor]]. Qed.
Lemma load_encodes : flat_encodes load_own load_parts load_vs load_us load_ovs load_es.
Proof.
  split.
  - constructor. constructor; [split; [reflexivity|exact (en_u8 x07)]|]. constructor; [split; [reflexivity|constructor]|constructor].
  - constructor; [|constructor; [|constructor]].
    + apply (pw_struct _ _ [(bs "d", xy_seq); (bs "note", SNone)]); [|cbn; intuition discriminate]. constructor. constructor; [split; [reflexivity|exact xy_encodes]|].
      constructor; [split; [reflexivity|constructor]|constructor].
    + apply (pw_map TyBool); [|cbn; intuition discriminate]. eapply (en_map TyBool _ [(bs "z", XBool true)]); [repeat constructor|apply Permutation_refl|].
      constructor; [split; [reflexivity|constructor]|constructor].
Qed.
Lemma load_keeps : flat_keeps true load_own load_parts load_vs load_us.
Proof.
  split.
  - constructor; [constructor|]. constructor; [constructor; [reflexivity|discriminate]|constructor].
  - constructor; [|constructor; [|constructor]].
    + split; [|cbn; auto]. constructor; [discriminate|]. constructor; [apply xy_recoverable|]. constructor; [constructor|constructor].
    + split; [|exact I]. constructor; [discriminate|repeat constructor].
Qed.
Lemma load_names : NoDup (map fst load_own ++ names_of (concat load_es)).
Proof. cbn. distinct. Qed.
Lemma load_first : no_mixed (merged load_ovs load_es) /\ plain_first (merged load_ovs load_es).
Proof. split; cbn; repeat split; try (vm_compute; discriminate); repeat constructor; vm_compute; discriminate. Qed.
Lemma load_end : map_at_end load_parts.
Proof. exists [[(bs "d", BufferDemo.u8s); (bs "note", TyOption TyString)]], [PMap TyBool]. split; [reflexivity|]. right. eexists. reflexivity. Qed.
Lemma load_alone : maps_alone load_parts load_es.
Proof. apply (last_alone _ load_us); [exact load_end|apply load_encodes|exact (nodup_tail _ _ load_names)]. Qed.

Lemma odd_flat_ok : flat_ok [] odd_parts.
Proof. split; [split; [constructor|exact I]|]. split; [cbn; distinct|]. constructor; [exact I|]. constructor; [split; [distinct|cbn; auto]|constructor]. Qed.
Lemma odd_encodes : flat_encodes [] odd_parts [] odd_us [] odd_es.
Proof.
  split; [constructor; constructor|]. constructor; [|constructor; [|constructor]].
  - apply (pw_map TyValue); [|cbn; intuition discriminate]. eapply (en_map TyValue _ [(bs "m", XValue (VBool true))]); [repeat constructor|apply Permutation_refl|].
    constructor; [split; [reflexivity|exact (en_value (VBool true) I)]|constructor].
  - apply (pw_struct _ _ [(bs "a", SInt 1)]); [|cbn; intuition (try discriminate; lia)]. constructor. constructor; [split; [reflexivity|]|constructor]. apply en_int; [lia|lia].
Qed.
Lemma C88_refuted_lemma : ~ C88_full.
Proof.
  intros H.
  specialize (H true load_src (bs "/") load 2 _ [] odd_parts [] odd_us [] odd_es load_sendable (load_became 2 (merged [] odd_es) _ eq_refl eq_refl) odd_flat_ok odd_encodes).
  vm_compute in H. discriminate.
Qed.
Lemma odd_not_alone : ~ maps_alone odd_parts odd_es.
Proof.
  intros H. specialize (H [] TyValue [PStruct [(bs "a", TyInt 0 65535)]] [] _ _ eq_refl eq_refl eq_refl (bs "a")). cbn in H.
  destruct H as [_ H]; [auto|]. destruct H as [H|[]]; [intros []|discriminate H].
Qed.
Lemma dup_case : flat_ok dup_own [PMap TyBool] /\ flat_encodes dup_own [PMap TyBool] [XInt 7] [XMap [(bs "id", XBool true)]] dup_ovs dup_es.
Proof.
  split.
  - split; [split; [distinct|cbn; auto]|]. split; [cbn; distinct|]. constructor; [exact I|constructor].
  - split; [constructor; constructor; [split; [reflexivity|exact (en_u8 x07)]|constructor]|]. constructor; [|constructor]. apply (pw_map TyBool); [|cbn; intuition discriminate].
    eapply (en_map TyBool _ [(bs "id", XBool true)]); [repeat constructor|apply Permutation_refl|]. constructor; [split; [reflexivity|constructor]|constructor].
Qed.
