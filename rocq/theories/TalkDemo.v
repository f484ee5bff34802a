(** A conversation that meets the hypotheses of the theorems. *)
From Verif Require Export TalkProofs FairDemo ClientDemo.
From Verif Require Import PeerReadProofs.
From Coq Require Import Lia.

(** What the server says in [demo_run]: a ping, an ack and an event with an attachment. *)
Definition demo_answer : sio := Sio SAck 0 (bs "/") (Some 0%N) (Some (bs "[true]")).
Definition demo_news : sio := Sio SBinaryEvent 1 (bs "/") (Some 5%N) (Some (bs "[""news"",{""_placeholder"":true,""num"":0}]")).
Definition demo_sayings : list saying := [SPing; SPacket demo_answer []; SPacket demo_news [[x01]]].
Lemma demo_answer_plain : plain_saying Third (SPacket demo_answer []).
Proof.
  split; [|split; [reflexivity|split; [left; reflexivity|]]].
  - constructor; cbn.
    + split; [split; [exists []; reflexivity|]|]; vm_compute; intuition discriminate.
    + vm_compute. discriminate.
    + vm_compute. discriminate.
    + reflexivity.
    + discriminate.
    + intros a [= <-]. vm_compute. intuition discriminate.
    + split; [discriminate|]. eexists [RBool true], _. split; [reflexivity|]. apply jvalue_by_scan; vm_compute; reflexivity.
  - exists [bs "true"]. split.
    + eexists. split; [reflexivity|]. exists [], (bs "true"), []. split; [exact (Forall_nil _)|]. split; [exact (Forall_nil _)|].
      split; [reflexivity|]. right. apply (ji_one (RBool true) (bs "true") [] [] (Forall_nil _) (Forall_nil _)). constructor.
    + split; [discriminate|left; reflexivity].
Qed.
Lemma demo_news_plain : plain_saying Third (SPacket demo_news [[x01]]).
Proof.
  assert (N : jvalue (RStr (bs "news")) (bs """news""")) by (apply jvalue_by_scan; vm_compute; reflexivity).
  split; [|split; [reflexivity|split; [left; reflexivity|]]].
  - constructor; cbn.
    + split; [split; [exists []; reflexivity|]|]; vm_compute; intuition discriminate.
    + vm_compute. discriminate.
    + vm_compute. discriminate.
    + discriminate.
    + reflexivity.
    + intros a [= <-]. vm_compute. intuition discriminate.
    + eexists (RStr (bs "news")), [RObj [(key_placeholder, RBool true); (key_num, RNum (NumLit false (bs "0") None None))]], _. split; [reflexivity|]. split.
      * apply jvalue_by_scan; vm_compute; reflexivity.
      * cbn. intros e He. apply means_unescape in He. vm_compute in He. injection He as <-. vm_compute. intuition discriminate.
  - exists [bs """news"""; bs "{""_placeholder"":true,""num"":0}"]. split.
    + eexists. split; [reflexivity|]. exists [], (bs """news"",{""_placeholder"":true,""num"":0}"), []. split; [exact (Forall_nil _)|]. split; [exact (Forall_nil _)|].
      split; [reflexivity|]. right. apply (ji_cons (RStr (bs "news")) (bs """news""") [] [] _ (bs "{""_placeholder"":true,""num"":0}") (Forall_nil _) (Forall_nil _) N).
      apply (ji_one (RObj [(key_placeholder, RBool true); (key_num, RNum (NumLit false (bs "0") None None))]) (bs "{""_placeholder"":true,""num"":0}") [] [] (Forall_nil _) (Forall_nil _) hole_text).
    + split; [discriminate|left; reflexivity].
Qed.
Lemma demo_plain : Forall (plain_saying Third) demo_sayings.
Proof. constructor; [exact I|]. constructor; [exact demo_answer_plain|]. constructor; [exact demo_news_plain|constructor]. Qed.

(** What the client says in it. *)
Lemma demo_client_run : exists s, client_run false demo_run s demo_obs /\ s_inflight s = [].
Proof. eexists. split; [vm_compute; reflexivity|reflexivity]. Qed.
Lemma demo_no_raw : no_raw demo_run.
Proof. intros fs H. vm_compute in H. repeat (destruct H as [H|H]; [discriminate|]). destruct H. Qed.
Lemma demo_said : said 0 demo_run = [Say (OfEvent (bs "ask") (Some 0%N)) (bs "/") false [SInt 1]] /\
  replies demo_run = [(true, [SBytes (bs "ok")])].
Proof. split; vm_compute; reflexivity. Qed.
Lemma root_ok : nsp_ok (bs "/").
Proof. split; [split; [exists []; reflexivity|]|]; vm_compute; intuition discriminate. Qed.
Lemma demo_well_spoken : well_spoken Third demo_run demo_obs.
Proof.
  destruct demo_said as [E1 E2]. unfold well_spoken. rewrite E1, E2. split.
  - constructor; [|constructor]. split; [exact root_ok|]. split; [intros i [= <-]; reflexivity|]. split; [exact I|]. split; [repeat constructor; vm_compute; intuition discriminate|].
    split; [discriminate|]. split; [reflexivity|]. split; [left; reflexivity|]. vm_compute. intuition discriminate.
  - intros bin args ns id HA H. destruct HA as [HA|[]]. injection HA as <- <-.
    assert (G : builders_given demo_obs = [(bs "/", 5%N)]) by (vm_compute; reflexivity). rewrite G in H. destruct H as [[= <- <-]|[]].
    split; [exact root_ok|]. split; [intros i [= <-]; reflexivity|]. split; [reflexivity|]. split; [repeat constructor|].
    split; [intros _; split; [repeat constructor|vm_compute; discriminate]|]. split; [reflexivity|]. split; [left; reflexivity|exact I].
Qed.
Lemma demo_calm : calm demo_obs.
Proof.
  split.
  - intros [H|H]; vm_compute in H; repeat (destruct H as [H|H]; [discriminate|]); destruct H.
  - intros b fs H. vm_compute in H. repeat (destruct H as [H|H]; [discriminate|]). destruct H.
Qed.
Definition busy_moment : nat := length opened_run + 8.
Lemma busy_deeds : no_raw (deeds busy_life busy_moment) /\ well_spoken Fourth (deeds busy_life busy_moment) (seen busy_life busy_moment) /\
  said 0 (deeds busy_life busy_moment) = [Say (OfEvent (bs "tick") None) (bs "/") false []; Say (OfEvent (bs "tick") None) (bs "/") false []].
Proof.
  assert (E : said 0 (deeds busy_life busy_moment) = [Say (OfEvent (bs "tick") None) (bs "/") false []; Say (OfEvent (bs "tick") None) (bs "/") false []]) by (vm_compute; reflexivity).
  split; [|split; [|exact E]].
  - intros fs H. vm_compute in H. repeat (destruct H as [H|H]; [discriminate|]). destruct H.
  - split.
    + rewrite E. assert (C : clear Fourth (Say (OfEvent (bs "tick") None) (bs "/") false [])); [|constructor; [exact C|constructor; [exact C|constructor]]].
      split; [exact root_ok|]. split; [intros i [=]|]. split; [exact I|]. split; [repeat constructor|]. split; [discriminate|]. split; [reflexivity|].
      split; [right; reflexivity|]. vm_compute. intuition discriminate.
    + intros bin args ns id H. vm_compute in H. destruct H.
Qed.
Lemma demo_heard : hears Third (writes demo_obs)
  [HPacket KEvent (bs "/") (Some 0%N) [VStr (bs "ask"); VNum (NPos 1)]; HPong; HPacket KAck (bs "/") (Some 5%N) [byte_array (bs "ok")]] [].
Proof.
  assert (W : writes demo_obs = [WText (bs "420[""ask"",1]")] ++ WText (bs "3") :: demo_ack ++ []) by (vm_compute; reflexivity). rewrite W.
  destruct demo_well_spoken as [C1 C2]. destruct demo_said as [S1 S2]. rewrite S1 in C1. inversion C1 as [|? ? C _]; subst. apply he_packet.
  - apply (clear_gets _ _ _ _ _ _ C). vm_compute. reflexivity.
  - apply he_pong. apply he_packet; [|constructor].
    assert (K : clear Third (Say (OfAck 5%N) (bs "/") true [SBytes (bs "ok")])) by (apply C2; [rewrite S2|vm_compute]; left; reflexivity).
    apply (clear_gets _ _ _ _ _ _ K). vm_compute. reflexivity.
Qed.
