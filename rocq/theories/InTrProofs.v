(* Proofs about the InputTransport model. *)
From Verif Require Import Common InTrSpec InTrModel.

(* the effect of the setters on the fields used below *)
Lemma g_w_state_i_state s x : i_state (w_state s x) = x. Proof. reflexivity. Qed.
Lemma g_w_state_i_inp s x : i_inp (w_state s x) = i_inp s. Proof. reflexivity. Qed.
Lemma g_w_state_i_cur s x : i_cur (w_state s x) = i_cur s. Proof. reflexivity. Qed.
Lemma g_w_state_i_ext s x : i_ext (w_state s x) = i_ext s. Proof. reflexivity. Qed.
Lemma g_w_state_i_tr s x : i_tr (w_state s x) = i_tr s. Proof. reflexivity. Qed.
Lemma g_w_state_i_port s x : i_port (w_state s x) = i_port s. Proof. reflexivity. Qed.
Lemma g_w_state_i_dead s x : i_dead (w_state s x) = i_dead s. Proof. reflexivity. Qed.
Lemma g_w_state_i_exit s x : i_exit (w_state s x) = i_exit s. Proof. reflexivity. Qed.
Lemma g_w_state_i_log s x : i_log (w_state s x) = i_log s. Proof. reflexivity. Qed.
Lemma g_w_inp_i_state s x : i_state (w_inp s x) = i_state s. Proof. reflexivity. Qed.
Lemma g_w_inp_i_inp s x : i_inp (w_inp s x) = x. Proof. reflexivity. Qed.
Lemma g_w_inp_i_cur s x : i_cur (w_inp s x) = i_cur s. Proof. reflexivity. Qed.
Lemma g_w_inp_i_ext s x : i_ext (w_inp s x) = i_ext s. Proof. reflexivity. Qed.
Lemma g_w_inp_i_tr s x : i_tr (w_inp s x) = i_tr s. Proof. reflexivity. Qed.
Lemma g_w_inp_i_port s x : i_port (w_inp s x) = i_port s. Proof. reflexivity. Qed.
Lemma g_w_inp_i_dead s x : i_dead (w_inp s x) = i_dead s. Proof. reflexivity. Qed.
Lemma g_w_inp_i_exit s x : i_exit (w_inp s x) = i_exit s. Proof. reflexivity. Qed.
Lemma g_w_inp_i_log s x : i_log (w_inp s x) = i_log s. Proof. reflexivity. Qed.
Lemma g_w_cur_i_state s x z : i_state (w_cur s x z) = i_state s. Proof. reflexivity. Qed.
Lemma g_w_cur_i_inp s x z : i_inp (w_cur s x z) = i_inp s. Proof. reflexivity. Qed.
Lemma g_w_cur_i_cur s x z : i_cur (w_cur s x z) = x. Proof. reflexivity. Qed.
Lemma g_w_cur_i_ext s x z : i_ext (w_cur s x z) = i_ext s. Proof. reflexivity. Qed.
Lemma g_w_cur_i_tr s x z : i_tr (w_cur s x z) = i_tr s. Proof. reflexivity. Qed.
Lemma g_w_cur_i_port s x z : i_port (w_cur s x z) = i_port s. Proof. reflexivity. Qed.
Lemma g_w_cur_i_dead s x z : i_dead (w_cur s x z) = i_dead s. Proof. reflexivity. Qed.
Lemma g_w_cur_i_exit s x z : i_exit (w_cur s x z) = i_exit s. Proof. reflexivity. Qed.
Lemma g_w_cur_i_log s x z : i_log (w_cur s x z) = i_log s. Proof. reflexivity. Qed.
Lemma g_w_size_i_state s x : i_state (w_size s x) = i_state s. Proof. reflexivity. Qed.
Lemma g_w_size_i_inp s x : i_inp (w_size s x) = i_inp s. Proof. reflexivity. Qed.
Lemma g_w_size_i_cur s x : i_cur (w_size s x) = i_cur s. Proof. reflexivity. Qed.
Lemma g_w_size_i_ext s x : i_ext (w_size s x) = i_ext s. Proof. reflexivity. Qed.
Lemma g_w_size_i_tr s x : i_tr (w_size s x) = i_tr s. Proof. reflexivity. Qed.
Lemma g_w_size_i_port s x : i_port (w_size s x) = i_port s. Proof. reflexivity. Qed.
Lemma g_w_size_i_dead s x : i_dead (w_size s x) = i_dead s. Proof. reflexivity. Qed.
Lemma g_w_size_i_exit s x : i_exit (w_size s x) = i_exit s. Proof. reflexivity. Qed.
Lemma g_w_size_i_log s x : i_log (w_size s x) = i_log s. Proof. reflexivity. Qed.
Lemma g_w_ext_i_state s x : i_state (w_ext s x) = i_state s. Proof. reflexivity. Qed.
Lemma g_w_ext_i_inp s x : i_inp (w_ext s x) = i_inp s. Proof. reflexivity. Qed.
Lemma g_w_ext_i_cur s x : i_cur (w_ext s x) = i_cur s. Proof. reflexivity. Qed.
Lemma g_w_ext_i_ext s x : i_ext (w_ext s x) = x. Proof. reflexivity. Qed.
Lemma g_w_ext_i_tr s x : i_tr (w_ext s x) = i_tr s. Proof. reflexivity. Qed.
Lemma g_w_ext_i_port s x : i_port (w_ext s x) = i_port s. Proof. reflexivity. Qed.
Lemma g_w_ext_i_dead s x : i_dead (w_ext s x) = i_dead s. Proof. reflexivity. Qed.
Lemma g_w_ext_i_exit s x : i_exit (w_ext s x) = i_exit s. Proof. reflexivity. Qed.
Lemma g_w_ext_i_log s x : i_log (w_ext s x) = i_log s. Proof. reflexivity. Qed.
Lemma g_w_stop_i_state s x : i_state (w_stop s x) = i_state s. Proof. reflexivity. Qed.
Lemma g_w_stop_i_inp s x : i_inp (w_stop s x) = i_inp s. Proof. reflexivity. Qed.
Lemma g_w_stop_i_cur s x : i_cur (w_stop s x) = i_cur s. Proof. reflexivity. Qed.
Lemma g_w_stop_i_ext s x : i_ext (w_stop s x) = i_ext s. Proof. reflexivity. Qed.
Lemma g_w_stop_i_tr s x : i_tr (w_stop s x) = i_tr s. Proof. reflexivity. Qed.
Lemma g_w_stop_i_port s x : i_port (w_stop s x) = i_port s. Proof. reflexivity. Qed.
Lemma g_w_stop_i_dead s x : i_dead (w_stop s x) = i_dead s. Proof. reflexivity. Qed.
Lemma g_w_stop_i_exit s x : i_exit (w_stop s x) = i_exit s. Proof. reflexivity. Qed.
Lemma g_w_stop_i_log s x : i_log (w_stop s x) = i_log s. Proof. reflexivity. Qed.
Lemma g_w_tr_i_state s x : i_state (w_tr s x) = i_state s. Proof. reflexivity. Qed.
Lemma g_w_tr_i_inp s x : i_inp (w_tr s x) = i_inp s. Proof. reflexivity. Qed.
Lemma g_w_tr_i_cur s x : i_cur (w_tr s x) = i_cur s. Proof. reflexivity. Qed.
Lemma g_w_tr_i_ext s x : i_ext (w_tr s x) = i_ext s. Proof. reflexivity. Qed.
Lemma g_w_tr_i_tr s x : i_tr (w_tr s x) = x. Proof. reflexivity. Qed.
Lemma g_w_tr_i_port s x : i_port (w_tr s x) = i_port s. Proof. reflexivity. Qed.
Lemma g_w_tr_i_dead s x : i_dead (w_tr s x) = i_dead s. Proof. reflexivity. Qed.
Lemma g_w_tr_i_exit s x : i_exit (w_tr s x) = i_exit s. Proof. reflexivity. Qed.
Lemma g_w_tr_i_log s x : i_log (w_tr s x) = i_log s. Proof. reflexivity. Qed.
Lemma g_w_run_i_state s x : i_state (w_run s x) = i_state s. Proof. reflexivity. Qed.
Lemma g_w_run_i_inp s x : i_inp (w_run s x) = i_inp s. Proof. reflexivity. Qed.
Lemma g_w_run_i_cur s x : i_cur (w_run s x) = i_cur s. Proof. reflexivity. Qed.
Lemma g_w_run_i_ext s x : i_ext (w_run s x) = i_ext s. Proof. reflexivity. Qed.
Lemma g_w_run_i_tr s x : i_tr (w_run s x) = i_tr s. Proof. reflexivity. Qed.
Lemma g_w_run_i_port s x : i_port (w_run s x) = i_port s. Proof. reflexivity. Qed.
Lemma g_w_run_i_dead s x : i_dead (w_run s x) = i_dead s. Proof. reflexivity. Qed.
Lemma g_w_run_i_exit s x : i_exit (w_run s x) = i_exit s. Proof. reflexivity. Qed.
Lemma g_w_run_i_log s x : i_log (w_run s x) = i_log s. Proof. reflexivity. Qed.
Lemma g_w_timer_i_state s x : i_state (w_timer s x) = i_state s. Proof. reflexivity. Qed.
Lemma g_w_timer_i_inp s x : i_inp (w_timer s x) = i_inp s. Proof. reflexivity. Qed.
Lemma g_w_timer_i_cur s x : i_cur (w_timer s x) = i_cur s. Proof. reflexivity. Qed.
Lemma g_w_timer_i_ext s x : i_ext (w_timer s x) = i_ext s. Proof. reflexivity. Qed.
Lemma g_w_timer_i_tr s x : i_tr (w_timer s x) = i_tr s. Proof. reflexivity. Qed.
Lemma g_w_timer_i_port s x : i_port (w_timer s x) = i_port s. Proof. reflexivity. Qed.
Lemma g_w_timer_i_dead s x : i_dead (w_timer s x) = i_dead s. Proof. reflexivity. Qed.
Lemma g_w_timer_i_exit s x : i_exit (w_timer s x) = i_exit s. Proof. reflexivity. Qed.
Lemma g_w_timer_i_log s x : i_log (w_timer s x) = i_log s. Proof. reflexivity. Qed.
Lemma g_w_port_i_state s x : i_state (w_port s x) = i_state s. Proof. reflexivity. Qed.
Lemma g_w_port_i_inp s x : i_inp (w_port s x) = i_inp s. Proof. reflexivity. Qed.
Lemma g_w_port_i_cur s x : i_cur (w_port s x) = i_cur s. Proof. reflexivity. Qed.
Lemma g_w_port_i_ext s x : i_ext (w_port s x) = i_ext s. Proof. reflexivity. Qed.
Lemma g_w_port_i_tr s x : i_tr (w_port s x) = i_tr s. Proof. reflexivity. Qed.
Lemma g_w_port_i_port s x : i_port (w_port s x) = x. Proof. reflexivity. Qed.
Lemma g_w_port_i_dead s x : i_dead (w_port s x) = i_dead s. Proof. reflexivity. Qed.
Lemma g_w_port_i_exit s x : i_exit (w_port s x) = i_exit s. Proof. reflexivity. Qed.
Lemma g_w_port_i_log s x : i_log (w_port s x) = i_log s. Proof. reflexivity. Qed.
Lemma g_w_dead_i_state s : i_state (w_dead s) = i_state s. Proof. reflexivity. Qed.
Lemma g_w_dead_i_inp s : i_inp (w_dead s) = i_inp s. Proof. reflexivity. Qed.
Lemma g_w_dead_i_cur s : i_cur (w_dead s) = i_cur s. Proof. reflexivity. Qed.
Lemma g_w_dead_i_ext s : i_ext (w_dead s) = i_ext s. Proof. reflexivity. Qed.
Lemma g_w_dead_i_tr s : i_tr (w_dead s) = i_tr s. Proof. reflexivity. Qed.
Lemma g_w_dead_i_port s : i_port (w_dead s) = i_port s. Proof. reflexivity. Qed.
Lemma g_w_dead_i_dead s : i_dead (w_dead s) = true. Proof. reflexivity. Qed.
Lemma g_w_dead_i_exit s : i_exit (w_dead s) = i_exit s. Proof. reflexivity. Qed.
Lemma g_w_dead_i_log s : i_log (w_dead s) = i_log s. Proof. reflexivity. Qed.
Lemma g_w_exit_i_state s : i_state (w_exit s) = i_state s. Proof. reflexivity. Qed.
Lemma g_w_exit_i_inp s : i_inp (w_exit s) = i_inp s. Proof. reflexivity. Qed.
Lemma g_w_exit_i_cur s : i_cur (w_exit s) = i_cur s. Proof. reflexivity. Qed.
Lemma g_w_exit_i_ext s : i_ext (w_exit s) = i_ext s. Proof. reflexivity. Qed.
Lemma g_w_exit_i_tr s : i_tr (w_exit s) = i_tr s. Proof. reflexivity. Qed.
Lemma g_w_exit_i_port s : i_port (w_exit s) = i_port s. Proof. reflexivity. Qed.
Lemma g_w_exit_i_dead s : i_dead (w_exit s) = i_dead s. Proof. reflexivity. Qed.
Lemma g_w_exit_i_exit s : i_exit (w_exit s) = true. Proof. reflexivity. Qed.
Lemma g_w_exit_i_log s : i_log (w_exit s) = OExit :: i_log s. Proof. reflexivity. Qed.
Lemma g_note_i_state s o : i_state (note s o) = i_state s. Proof. reflexivity. Qed.
Lemma g_note_i_inp s o : i_inp (note s o) = i_inp s. Proof. reflexivity. Qed.
Lemma g_note_i_cur s o : i_cur (note s o) = i_cur s. Proof. reflexivity. Qed.
Lemma g_note_i_ext s o : i_ext (note s o) = i_ext s. Proof. reflexivity. Qed.
Lemma g_note_i_tr s o : i_tr (note s o) = i_tr s. Proof. reflexivity. Qed.
Lemma g_note_i_port s o : i_port (note s o) = i_port s. Proof. reflexivity. Qed.
Lemma g_note_i_dead s o : i_dead (note s o) = i_dead s. Proof. reflexivity. Qed.
Lemma g_note_i_exit s o : i_exit (note s o) = i_exit s. Proof. reflexivity. Qed.
Lemma g_note_i_log s o : i_log (note s o) = o :: i_log s. Proof. reflexivity. Qed.
Lemma g_close_transport_i_state s e : i_state (close_transport s e) = i_state s. Proof. reflexivity. Qed.
Lemma g_close_transport_i_inp s e : i_inp (close_transport s e) = i_inp s. Proof. reflexivity. Qed.
Lemma g_close_transport_i_cur s e : i_cur (close_transport s e) = i_cur s. Proof. reflexivity. Qed.
Lemma g_close_transport_i_ext s e : i_ext (close_transport s e) = i_ext s. Proof. reflexivity. Qed.
Lemma g_close_transport_i_tr s e : i_tr (close_transport s e) = i_tr s. Proof. reflexivity. Qed.
Lemma g_close_transport_i_port s e : i_port (close_transport s e) = mkPort false (q_cap (i_port s)) 0 (q_in (i_port s)) (q_bc (i_port s)) (q_bu (i_port s)) (q_over (i_port s)). Proof. reflexivity. Qed.
Lemma g_close_transport_i_dead s e : i_dead (close_transport s e) = i_dead s. Proof. reflexivity. Qed.
Lemma g_close_transport_i_exit s e : i_exit (close_transport s e) = i_exit s. Proof. reflexivity. Qed.
Lemma g_close_transport_i_log s e : i_log (close_transport s e) = OClose e :: i_log s. Proof. reflexivity. Qed.
Lemma g_close_input_i_state s : i_state (close_input s) = i_state s. Proof. unfold close_input; destruct (i_inp s); reflexivity. Qed.
Lemma g_close_input_i_inp s : i_inp (close_input s) = false. Proof. unfold close_input; destruct (i_inp s); reflexivity. Qed.
Lemma g_close_input_i_cur s : i_cur (close_input s) = i_cur s. Proof. unfold close_input; destruct (i_inp s); reflexivity. Qed.
Lemma g_close_input_i_ext s : i_ext (close_input s) = i_ext s. Proof. unfold close_input; destruct (i_inp s); reflexivity. Qed.
Lemma g_close_input_i_tr s : i_tr (close_input s) = i_tr s. Proof. unfold close_input; destruct (i_inp s); reflexivity. Qed.
Lemma g_close_input_i_port s : i_port (close_input s) = i_port s. Proof. unfold close_input; destruct (i_inp s); reflexivity. Qed.
Lemma g_close_input_i_dead s : i_dead (close_input s) = i_dead s. Proof. unfold close_input; destruct (i_inp s); reflexivity. Qed.
Lemma g_close_input_i_exit s : i_exit (close_input s) = i_exit s. Proof. unfold close_input; destruct (i_inp s); reflexivity. Qed.
Lemma g_close_input_i_log s : i_log (close_input s) = (if i_inp s then OGone :: i_log s else i_log s). Proof. unfold close_input; destruct (i_inp s); reflexivity. Qed.
Lemma g_send_cur_i_state s : i_state (send_cur s) = i_state s. Proof. unfold send_cur; destruct (i_cur s); reflexivity. Qed.
Lemma g_send_cur_i_inp s : i_inp (send_cur s) = i_inp s. Proof. unfold send_cur; destruct (i_cur s); reflexivity. Qed.
Lemma g_send_cur_i_cur s : i_cur (send_cur s) = None. Proof. unfold send_cur; destruct (i_cur s); reflexivity. Qed.
Lemma g_send_cur_i_ext s : i_ext (send_cur s) = i_ext s. Proof. unfold send_cur; destruct (i_cur s); reflexivity. Qed.
Lemma g_send_cur_i_tr s : i_tr (send_cur s) = i_tr s. Proof. unfold send_cur; destruct (i_cur s); reflexivity. Qed.
Lemma g_send_cur_i_port s : i_port (send_cur s) = (match i_cur s with Some _ => p_send (i_port s) | None => i_port s end). Proof. unfold send_cur; destruct (i_cur s); reflexivity. Qed.
Lemma g_send_cur_i_dead s : i_dead (send_cur s) = i_dead s. Proof. unfold send_cur; destruct (i_cur s); reflexivity. Qed.
Lemma g_send_cur_i_exit s : i_exit (send_cur s) = i_exit s. Proof. unfold send_cur; destruct (i_cur s); reflexivity. Qed.
Lemma g_send_cur_i_log s : i_log (send_cur s) = OSend (i_cur s) :: i_log s. Proof. unfold send_cur; destruct (i_cur s); reflexivity. Qed.
Lemma g_change_i_state s x : i_state (change s x) = x. Proof. unfold change, base_stop; cbv zeta; change (i_stop (w_state s x)) with (i_stop s); destruct (i_stop s && suitable x); [|reflexivity]; change (i_run (w_stop (w_state s x) false)) with (i_run s); destruct (i_run s); reflexivity. Qed.
Lemma g_change_i_inp s x : i_inp (change s x) = i_inp s. Proof. unfold change, base_stop; cbv zeta; change (i_stop (w_state s x)) with (i_stop s); destruct (i_stop s && suitable x); [|reflexivity]; change (i_run (w_stop (w_state s x) false)) with (i_run s); destruct (i_run s); reflexivity. Qed.
Lemma g_change_i_cur s x : i_cur (change s x) = i_cur s. Proof. unfold change, base_stop; cbv zeta; change (i_stop (w_state s x)) with (i_stop s); destruct (i_stop s && suitable x); [|reflexivity]; change (i_run (w_stop (w_state s x) false)) with (i_run s); destruct (i_run s); reflexivity. Qed.
Lemma g_change_i_ext s x : i_ext (change s x) = i_ext s. Proof. unfold change, base_stop; cbv zeta; change (i_stop (w_state s x)) with (i_stop s); destruct (i_stop s && suitable x); [|reflexivity]; change (i_run (w_stop (w_state s x) false)) with (i_run s); destruct (i_run s); reflexivity. Qed.
Lemma g_change_i_tr s x : i_tr (change s x) = i_tr s. Proof. unfold change, base_stop; cbv zeta; change (i_stop (w_state s x)) with (i_stop s); destruct (i_stop s && suitable x); [|reflexivity]; change (i_run (w_stop (w_state s x) false)) with (i_run s); destruct (i_run s); reflexivity. Qed.
Lemma g_change_i_port s x : i_port (change s x) = i_port s. Proof. unfold change, base_stop; cbv zeta; change (i_stop (w_state s x)) with (i_stop s); destruct (i_stop s && suitable x); [|reflexivity]; change (i_run (w_stop (w_state s x) false)) with (i_run s); destruct (i_run s); reflexivity. Qed.
Lemma g_change_i_dead s x : i_dead (change s x) = i_dead s. Proof. unfold change, base_stop; cbv zeta; change (i_stop (w_state s x)) with (i_stop s); destruct (i_stop s && suitable x); [|reflexivity]; change (i_run (w_stop (w_state s x) false)) with (i_run s); destruct (i_run s); reflexivity. Qed.
Lemma g_change_i_exit s x : i_exit (change s x) = i_exit s. Proof. unfold change, base_stop; cbv zeta; change (i_stop (w_state s x)) with (i_stop s); destruct (i_stop s && suitable x); [|reflexivity]; change (i_run (w_stop (w_state s x) false)) with (i_run s); destruct (i_run s); reflexivity. Qed.
Lemma g_change_i_log s x : i_log (change s x) = i_log s. Proof. unfold change, base_stop; cbv zeta; change (i_stop (w_state s x)) with (i_stop s); destruct (i_stop s && suitable x); [|reflexivity]; change (i_run (w_stop (w_state s x) false)) with (i_run s); destruct (i_run s); reflexivity. Qed.
#[export] Hint Rewrite g_w_state_i_state
  g_w_state_i_inp
  g_w_state_i_cur
  g_w_state_i_ext
  g_w_state_i_tr
  g_w_state_i_port
  g_w_state_i_dead
  g_w_state_i_exit
  g_w_state_i_log
  g_w_inp_i_state
  g_w_inp_i_inp
  g_w_inp_i_cur
  g_w_inp_i_ext
  g_w_inp_i_tr
  g_w_inp_i_port
  g_w_inp_i_dead
  g_w_inp_i_exit
  g_w_inp_i_log
  g_w_cur_i_state
  g_w_cur_i_inp
  g_w_cur_i_cur
  g_w_cur_i_ext
  g_w_cur_i_tr
  g_w_cur_i_port
  g_w_cur_i_dead
  g_w_cur_i_exit
  g_w_cur_i_log
  g_w_size_i_state
  g_w_size_i_inp
  g_w_size_i_cur
  g_w_size_i_ext
  g_w_size_i_tr
  g_w_size_i_port
  g_w_size_i_dead
  g_w_size_i_exit
  g_w_size_i_log
  g_w_ext_i_state
  g_w_ext_i_inp
  g_w_ext_i_cur
  g_w_ext_i_ext
  g_w_ext_i_tr
  g_w_ext_i_port
  g_w_ext_i_dead
  g_w_ext_i_exit
  g_w_ext_i_log
  g_w_stop_i_state
  g_w_stop_i_inp
  g_w_stop_i_cur
  g_w_stop_i_ext
  g_w_stop_i_tr
  g_w_stop_i_port
  g_w_stop_i_dead
  g_w_stop_i_exit
  g_w_stop_i_log
  g_w_tr_i_state
  g_w_tr_i_inp
  g_w_tr_i_cur
  g_w_tr_i_ext
  g_w_tr_i_tr
  g_w_tr_i_port
  g_w_tr_i_dead
  g_w_tr_i_exit
  g_w_tr_i_log
  g_w_run_i_state
  g_w_run_i_inp
  g_w_run_i_cur
  g_w_run_i_ext
  g_w_run_i_tr
  g_w_run_i_port
  g_w_run_i_dead
  g_w_run_i_exit
  g_w_run_i_log
  g_w_timer_i_state
  g_w_timer_i_inp
  g_w_timer_i_cur
  g_w_timer_i_ext
  g_w_timer_i_tr
  g_w_timer_i_port
  g_w_timer_i_dead
  g_w_timer_i_exit
  g_w_timer_i_log
  g_w_port_i_state
  g_w_port_i_inp
  g_w_port_i_cur
  g_w_port_i_ext
  g_w_port_i_tr
  g_w_port_i_port
  g_w_port_i_dead
  g_w_port_i_exit
  g_w_port_i_log
  g_w_dead_i_state
  g_w_dead_i_inp
  g_w_dead_i_cur
  g_w_dead_i_ext
  g_w_dead_i_tr
  g_w_dead_i_port
  g_w_dead_i_dead
  g_w_dead_i_exit
  g_w_dead_i_log
  g_w_exit_i_state
  g_w_exit_i_inp
  g_w_exit_i_cur
  g_w_exit_i_ext
  g_w_exit_i_tr
  g_w_exit_i_port
  g_w_exit_i_dead
  g_w_exit_i_exit
  g_w_exit_i_log
  g_note_i_state
  g_note_i_inp
  g_note_i_cur
  g_note_i_ext
  g_note_i_tr
  g_note_i_port
  g_note_i_dead
  g_note_i_exit
  g_note_i_log
  g_close_transport_i_state
  g_close_transport_i_inp
  g_close_transport_i_cur
  g_close_transport_i_ext
  g_close_transport_i_tr
  g_close_transport_i_port
  g_close_transport_i_dead
  g_close_transport_i_exit
  g_close_transport_i_log
  g_close_input_i_state
  g_close_input_i_inp
  g_close_input_i_cur
  g_close_input_i_ext
  g_close_input_i_tr
  g_close_input_i_port
  g_close_input_i_dead
  g_close_input_i_exit
  g_close_input_i_log
  g_send_cur_i_state
  g_send_cur_i_inp
  g_send_cur_i_cur
  g_send_cur_i_ext
  g_send_cur_i_tr
  g_send_cur_i_port
  g_send_cur_i_dead
  g_send_cur_i_exit
  g_send_cur_i_log
  g_change_i_state
  g_change_i_inp
  g_change_i_cur
  g_change_i_ext
  g_change_i_tr
  g_change_i_port
  g_change_i_dead
  g_change_i_exit
  g_change_i_log : itf.
Ltac flds := autorewrite with itf.

Lemma meanwhile_fields env s :
  i_state (meanwhile env s) = i_state s /\ i_inp (meanwhile env s) = i_inp s /\ i_cur (meanwhile env s) = i_cur s /\
  i_ext (meanwhile env s) = i_ext s /\ i_tr (meanwhile env s) = i_tr s /\ i_exit (meanwhile env s) = i_exit s /\
  i_log (meanwhile env s) = i_log s /\ i_port (meanwhile env s) = fold_left p_ev (env (i_log s)) (i_port s).
Proof. repeat split. Qed.

(* nothing is done about an end-of-file buffer but closing *)
Fixpoint okeof (l : list iobs) : Prop :=
  match l with [] => True | o :: r => (sends o = true -> ~ In OEof r) /\ okeof r end.

Definition opt (d : option N) : list N := match d with Some x => [x] | None => [] end.
Definition pend (s : it) : list N := match i_state s with inpReady => opt (i_cur s) | _ => [] end.
Definition bal (s : it) : Prop :=
  exists rest, ready (i_log s) = sent (i_log s) ++ rest /\ (length rest <= 1)%nat /\ (i_exit s = false -> rest = pend s).

Lemma port_ev bc bu p e : q_bc p = bc -> q_bu p = bu -> harmless bc bu e = true ->
  (0 < num_can_send p)%nat -> (0 < num_can_send (p_ev p e))%nat.
Proof.
  intros A B H. unfold num_can_send. destruct p as [o c z i x y v]. cbn in A, B. subst. destruct e; cbn [p_ev q_own q_cap q_size q_in q_bc q_bu].
  - destruct o; [|lia]. destruct (Nat.ltb z c) eqn:E.
    + apply Nat.ltb_lt in E. destruct i.
      * replace (Nat.ltb (Nat.pred z) c) with true by (symmetry; apply Nat.ltb_lt; lia). lia.
      * rewrite (proj2 (Nat.ltb_lt z c) E). lia.
    + destruct i; [|rewrite E; destruct bu; lia]. destruct bc; [lia|]. destruct (Nat.ltb (Nat.pred z) c) eqn:F; [apply Nat.ltb_lt in F|]; lia.
  - destruct o; [|lia]. destruct (Nat.ltb z c); [auto|]. destruct i, bc, bu; cbn in *; try discriminate; lia.
  - destruct o; [|lia]. destruct (Nat.ltb z c); [auto|]. destruct i, bc, bu; cbn in *; try discriminate; lia.
Qed.
Lemma port_flags p e : q_bc (p_ev p e) = q_bc p /\ q_bu (p_ev p e) = q_bu p.
Proof. destruct e; auto. Qed.
Lemma ports_flags l : forall p, q_bc (fold_left p_ev l p) = q_bc p /\ q_bu (fold_left p_ev l p) = q_bu p.
Proof. induction l as [|e l IH]; intro p; cbn [fold_left]; [auto|]. destruct (IH (p_ev p e)) as [A B]. destruct (port_flags p e). split; congruence. Qed.
Lemma ports_ev bc bu l : forall p, q_bc p = bc -> q_bu p = bu -> forallb (harmless bc bu) l = true ->
  (0 < num_can_send p)%nat -> (0 < num_can_send (fold_left p_ev l p))%nat.
Proof.
  induction l as [|e l IH]; intros p A B H P; cbn [fold_left]; [exact P|]. cbn [forallb] in H. apply andb_prop in H as [H1 H2].
  destruct (port_flags p e). apply IH; try congruence. eapply port_ev; eauto.
Qed.

Section R.
Variable osize : list iobs -> scode.
Variable ostart : list iobs -> stcode * bool.
Variable ocomp : list iobs -> cpcode * option N.
Variable ocb : list iobs -> option scode.
Variable opool : list iobs -> option N.
Variable ocreate : list iobs -> bool.
Variable env : list iobs -> list pev.
Variable auto recon : bool.
Variable lim : option nat.
Variable bc bu safe : bool.
Hypothesis Hsafe : safe = true -> forall l, forallb (harmless bc bu) (env l) = true.

Definition flags (s : it) : Prop := q_bc (i_port s) = bc /\ q_bu (i_port s) = bu.
Definition eofs (s : it) : Prop := recon = false -> (i_inp s = true -> ~ In OEof (i_log s)) /\ okeof (i_log s).

(* between two events *)
Definition J (s : it) : Prop :=
  bal s /\ (i_exit s = false -> i_state s <> inpReady) /\
  (safe = true -> i_exit s = true -> exists c r, i_log s = OExit :: OCall c :: r) /\ flags s /\ eofs s.
(* inside ProcessSend *)
Definition Md (s : it) : Prop :=
  i_inp s = true /\ i_exit s = false /\ (safe = true -> (0 < num_can_send (i_port s))%nat) /\
  ready (i_log s) = sent (i_log s) ++ pend s /\ flags s /\ (recon = false -> ~ In OEof (i_log s) /\ okeof (i_log s)).

Lemma Md_J s : Md s -> i_state s <> inpReady -> J s.
Proof.
  intros (A & B & C & D & E & F) N. repeat split; auto.
  - exists (pend s). repeat split; auto. unfold pend. destruct (i_state s); cbn; try lia. congruence.
  - congruence.
  - apply E.
  - apply E.
  - intros _. apply F; auto.
  - apply F; auto.
Qed.

(* what does not touch ready, sent and the end of file *)
Definition dull (o : iobs) : bool :=
  match o with OSize _ | OTake _ | OStart _ | OCall _ | OGone | OClose _ | OCreate _ => true
  | OComplete (CpOk | CpMore) (Some _) => false | OComplete _ _ => true | _ => false end.
Lemma dull_ready o l : dull o = true -> ready (o :: l) = ready l /\ sent (o :: l) = sent l /\ sends o = false /\ o <> OEof.
Proof. destruct o as [| | |[] []|[]| | | | | |]; cbn; intros; try discriminate; repeat split; congruence. Qed.

Lemma Md_step s s1 o : Md s -> i_state s <> inpReady ->
  i_inp s1 = i_inp s -> i_exit s1 = i_exit s -> i_port s1 = i_port s -> i_state s1 <> inpReady ->
  i_log s1 = o :: i_log s -> dull o = true -> Md s1.
Proof.
  intros (A & B & C & D & (E1 & E2) & F) N I X P S L W. destruct (dull_ready o (i_log s) W) as (R1 & R2 & R3 & R4).
  unfold Md, flags. rewrite I, X, P, L. repeat split; auto.
  - rewrite R1, R2, D. f_equal. unfold pend. destruct (i_state s), (i_state s1); congruence.
  - intros [G|G]; [congruence|]. revert G. apply F; auto.
  - cbn [okeof]. rewrite R3. discriminate.
  - cbn [okeof]. apply F; auto.
Qed.
Lemma Md_same s s1 : Md s -> i_state s <> inpReady ->
  i_inp s1 = i_inp s -> i_exit s1 = i_exit s -> i_port s1 = i_port s -> i_state s1 <> inpReady ->
  i_log s1 = i_log s -> Md s1.
Proof.
  intros (A & B & C & D & (E1 & E2) & F) N I X P S L.
  unfold Md, flags. rewrite I, X, P, L. repeat split; auto; try (apply F; assumption).
  rewrite D. f_equal. unfold pend. destruct (i_state s), (i_state s1); congruence.
Qed.
Lemma Md_meanwhile s : Md s -> Md (meanwhile env s).
Proof.
  intros (A & B & C & D & (E1 & E2) & F). destruct (meanwhile_fields env s) as (G1 & G2 & G3 & G4 & G5 & G6 & G7 & G8).
  destruct (ports_flags (env (i_log s)) (i_port s)) as [H1 H2].
  unfold Md, flags, pend. rewrite G1, G2, G3, G6, G7, G8. repeat split; auto; try congruence; try (apply F; assumption).
  intro S. eapply (ports_ev bc bu); auto.
Qed.
Lemma Md_inside s : Md s -> i_state s = inpSizeCallBack \/ i_state s = inpCallBack ->
  Md (inside ocb s) /\ i_state (inside ocb s) <> inpReady /\ i_exit (inside ocb s) = false.
Proof.
  intros H S. unfold inside. destruct (ocb (i_log s)) as [c|]; [|destruct H as (A & B & H); repeat split; auto; try (apply H); try tauto; destruct S; congruence].
  assert (E : exists x, (x = inpCheckSize \/ x = inpCompleting) /\ (exists z, read_callback s c = w_size (w_state (note s (OCall c)) x) z \/ read_callback s c = w_state (note s (OCall c)) x \/ read_callback s c = w_state (w_state (note s (OCall c)) inpCallBack) x)).
  { unfold read_callback. cbv zeta. destruct S as [S|S].
    - destruct c; flds; rewrite ?S; eauto 6. destruct (Nat.eqb (i_ext s) 0); flds; rewrite ?S; eauto 6.
      exists inpCompleting. split; auto. exists (SSize 0). auto.
    - exists inpCompleting. split; auto. exists (SSize 0). destruct c; flds; rewrite ?S; auto.
      destruct (Nat.eqb (i_ext s) 0); flds; rewrite ?S; auto. }
  destruct E as (x & X & z & E).
  assert (P : i_state (read_callback s c) = x /\ i_exit (read_callback s c) = i_exit s /\ i_inp (read_callback s c) = i_inp s /\
     i_port (read_callback s c) = i_port s /\ i_log (read_callback s c) = OCall c :: i_log s)
    by (destruct E as [E|[E|E]]; rewrite E; flds; auto).
  destruct P as (P1 & P2 & P3 & P4 & P5). split; [|split].
  - eapply Md_step; eauto; try (destruct S; congruence). rewrite P1. destruct X; congruence.
  - rewrite P1. destruct X; congruence.
  - rewrite P2. apply H.
Qed.

Definition okp (r : res (it * option bool)) : Prop :=
  exists s1 o, r = Ok (s1, o) /\ match o with Some _ => J s1 | None => Md s1 end.

Ltac mdstep H := eapply Md_step; [exact H|..]; flds; first [reflexivity|congruence|idtac].
Ltac mdsame H := eapply Md_same; [exact H|..]; flds; first [reflexivity|congruence|idtac].

Lemma exit_J s : Md s -> (i_state s <> inpReady \/ True) -> (safe = true -> False) -> J (w_exit s).
Proof.
  intros (A & B & C & D & E & F) _ X. unfold J, bal, flags, eofs. flds. repeat split; try (apply E); try discriminate.
  - exists (pend s). cbn [ready sent]. repeat split; auto; try discriminate. unfold pend. destruct (i_state s), (i_cur s); cbn; lia.
  - intro G. exfalso; auto.
  - intros _ [G|G]; [discriminate|]. revert G. apply F; auto.
  - apply F; auto.
Qed.

Lemma p_init_ok s : Md s -> i_state s <> inpReady -> okp (p_init osize ocb env s) /\
  (forall s1, p_init osize ocb env s = Ok (s1, None) -> i_state s1 <> inpReady).
Proof.
  intros H N. unfold p_init.
  destruct (i_state s) eqn:S; try (split; [exists s, None; auto|intros s1 E; injection E as <-; congruence]).
  destruct (negb _); [split; [exists s, (Some false); split; auto; apply Md_J; congruence|discriminate]|].
  destruct (Nat.ltb 0 (i_ext s) && _).
  { split; [|discriminate]. eexists _, _. split; [reflexivity|]. apply Md_J; [mdsame H|flds; congruence]. }
  destruct (Nat.eqb (num_can_send (i_port s)) 0) eqn:Z.
  { split; [|discriminate]. eexists _, _. split; [reflexivity|]. apply exit_J; auto.
    intro G. destruct H as (_ & _ & C & _). specialize (C G). apply Nat.eqb_eq in Z. lia. }
  rewrite (proj1 H).
  assert (H1 : Md (meanwhile env (w_size (w_state s inpSizeCallBack) (SSize 0)))) by (apply Md_meanwhile; mdsame H).
  destruct (Md_inside _ H1) as (H2 & S2 & X2); [left; apply meanwhile_fields|].
  set (s1 := inside ocb _) in *. cbv zeta. rewrite X2.
  assert (H3 : forall c, Md (note s1 (OSize c))) by (intro c; mdstep H2; assumption).
  destruct (osize (i_log s1)); (split; [|first [discriminate|intros s3 E; injection E as <-; flds; congruence]]).
  all: eexists _, _; split; [reflexivity|].
  all: first [apply Md_J; [|flds; congruence]|idtac].
  all: mdstep H2; assumption.
Qed.

Definition okp2 (r : res (it * option bool)) : Prop :=
  okp r /\ (forall s1, r = Ok (s1, None) -> i_state s1 <> inpReady).

Ltac same s S := split; [exists s, None; split; [reflexivity|assumption]|intros ? E; injection E as <-; congruence].

Lemma p_size_ok s : Md s -> i_state s <> inpReady -> okp2 (p_size s).
Proof.
  intros H N. unfold p_size. destruct (i_state s) eqn:S; try (same s S).
  destruct (i_size s); (split; [|intros ? E; injection E as <-; flds; congruence]);
    eexists _, None; (split; [reflexivity|]); mdsame H.
Qed.
Lemma p_need_ok s : Md s -> i_state s <> inpReady -> okp2 (p_need opool auto s).
Proof.
  intros H N. unfold p_need. destruct (i_state s) eqn:S; try (same s S).
  destruct (opool (i_log s)); [|destruct auto];
    (split; [|try discriminate; intros ? E; injection E as <-; flds; congruence]); eexists _, _; (split; [reflexivity|]).
  - mdstep H.
  - apply Md_J; [mdsame H|flds; congruence].
  - apply Md_J; [mdsame H|flds; congruence].
Qed.
Lemma p_check_ok s : Md s -> i_state s <> inpReady -> okp2 (p_check s).
Proof.
  intros H N. unfold p_check. cbv zeta. destruct (i_state s) eqn:S; try (same s S).
  destruct (N.ltb _ _); (split; [|intros ? E; injection E as <-; flds; congruence]); eexists _, None; (split; [reflexivity|]); mdsame H.
Qed.
Lemma p_has_ok s : Md s -> i_state s <> inpReady -> okp2 (p_has ostart ocb env s).
Proof.
  intros H N. unfold p_has. destruct (i_state s) eqn:S; try (same s S).
  rewrite (proj1 H).
  assert (H1 : Md (meanwhile env (w_state s inpCallBack))) by (apply Md_meanwhile; mdsame H).
  destruct (Md_inside _ H1) as (H2 & S2 & X2); [right; apply meanwhile_fields|].
  set (s1 := inside ocb _) in *. cbv zeta. rewrite X2. destruct (ostart (i_log s1)) as [c keep].
  destruct c, keep; (split; [|try discriminate; intros ? E; injection E as <-; flds; congruence]); eexists _, _; (split; [reflexivity|]).
  all: first [apply Md_J; [|flds; congruence]|idtac].
  all: mdstep H2; assumption.
Qed.
Lemma p_cb_ok s : Md s -> i_state s <> inpReady -> okp2 (p_cb s).
Proof.
  intros H N. unfold p_cb. destruct (i_state s) eqn:S; try (same s S).
  split; [|discriminate]. exists s, (Some false). split; [reflexivity|]. apply Md_J; congruence.
Qed.

Lemma Md_complete s c d z : Md s -> i_state s = inpCompleting -> dull (OComplete c d) = true ->
  Md (w_ext (note (w_cur s d z) (OComplete c d)) (Nat.pred (i_ext (note (w_cur s d z) (OComplete c d))))).
Proof. intros H S W. mdstep H. Qed.

Lemma send_J s d : i_inp s = true -> i_exit s = false -> flags s -> (recon = false -> ~ In OEof (i_log s) /\ okeof (i_log s)) ->
  i_cur s = d -> ready (i_log s) = sent (i_log s) ++ opt d -> i_state s <> inpReady -> J (send_cur s).
Proof.
  intros A B (E1 & E2) F C D S. unfold J, bal, flags, eofs. flds. rewrite A, B, C. repeat split; try discriminate; auto.
  - exists []. unfold pend. flds. cbn [ready]. repeat split; cbn; auto.
    + destruct d; cbn [sent opt] in *; rewrite D, ?app_nil_r; reflexivity.
    + destruct (i_state s); auto; congruence.
  - destruct d; cbn; auto.
  - destruct d; cbn; auto.
  - intros _ [G|G]; [discriminate|]. revert G. apply F; auto.
  - intros _. apply F; auto.
  - apply F; auto.
Qed.

Lemma p_compl_ok s : Md s -> i_state s <> inpReady -> okp (p_compl ocomp env s).
Proof.
  intros H N. unfold p_compl. cbv zeta. destruct (i_state s) eqn:S; try (exists s, None; split; [reflexivity|assumption]).
  destruct (Bool.eqb _ _). { exists s, (Some false). split; [reflexivity|]. apply Md_J; congruence. }
  rewrite (proj1 H). pose proof (Md_meanwhile s H) as H1.
  assert (S1 : i_state (meanwhile env s) = inpCompleting) by exact S.
  set (s1 := meanwhile env s) in *. clearbody s1. destruct (ocomp (i_log s1)) as [c d].
  assert (Hr : c = CpOk \/ c = CpMore \/ (dull (OComplete c d) = true /\ c <> CpOk /\ c <> CpMore)) by (destruct c; auto; right; right; repeat split; discriminate).
  destruct Hr as [->|[->|(W & W1 & W2)]].
  - eexists _, None. split; [reflexivity|]. destruct H1 as (A & B & C & D & E & F). unfold Md, flags, pend. flds.
    unfold pend in D. rewrite S1, app_nil_r in D. repeat split; auto; try (apply E).
    + cbn [ready sent]. destruct d; cbn [opt]; rewrite D, ?app_nil_r; reflexivity.
    + intros [G|G]; [discriminate|]. revert G. apply F; auto.
    + discriminate.
    + apply F; auto.
  - flds. destruct H1 as (A & B & C & D & E & F). unfold pend in D. rewrite S1, app_nil_r in D.
    destruct (Nat.eqb (num_can_send (i_port s1)) 0) eqn:Z; eexists _, _; (split; [reflexivity|]).
    + unfold J, bal, flags, eofs. flds. repeat split; try discriminate; try (apply E).
      * exists (opt d). cbn [ready sent]. split; [destruct d; cbn [opt]; rewrite D, ?app_nil_r; reflexivity|]. split; [destruct d; cbn; lia|discriminate].
      * intro G. specialize (C G). apply Nat.eqb_eq in Z. lia.
      * intros _ [G|[G|G]]; try discriminate. revert G. apply F; auto.
      * apply F; auto.
    + apply (send_J _ d); unfold flags; flds; auto.
      * intro R. split; [intros [G|G]; [discriminate|revert G; apply F; auto]|]. cbn [okeof sends]. split; [discriminate|apply F; auto].
      * cbn [ready sent]. destruct d; cbn [opt]; rewrite D, ?app_nil_r; reflexivity.
      * congruence.
  - pose proof (Md_complete s1 c d (i_csz s1) H1 S1 W) as H2. 
    set (s3 := w_ext _ _) in *. assert (S3 : i_state s3 = inpCompleting) by (unfold s3; flds; exact S1). clearbody s3.
    destruct c; try congruence; eexists _, _; (split; [reflexivity|]).
    all: first [apply Md_J; [|flds; congruence]|idtac].
    all: first [exact H2|mdsame H2].
Qed.

Lemma J_close s e : J s -> i_exit s = false -> J (close_transport s e).
Proof.
  intros ((r & A1 & A2 & A3) & B & C & (E1 & E2) & F) X. unfold J, bal, flags, eofs, pend. flds. rewrite X.
  repeat split; auto; try discriminate.
  - exists r. cbn [ready sent]. auto.
  - intros I [G|G]; [discriminate|]. revert G. apply F; auto.
  - apply F; auto.
Qed.
Lemma J_gone s x : J s -> i_exit s = false -> x <> inpReady -> J (change (close_input s) x).
Proof.
  intros ((r & A1 & A2 & A3) & B & C & (E1 & E2) & F) X N. unfold J, bal, flags, eofs, pend. flds. rewrite X.
  repeat split; auto; try discriminate.
  - exists r. repeat split; auto; [destruct (i_inp s); cbn [ready sent]; exact A1|].
    intros _. rewrite A3 by exact X. unfold pend. specialize (B X). destruct (i_state s), x; congruence.
  - destruct (i_inp s); cbn [okeof sends]; [split; [discriminate|]|]; apply F; auto.
Qed.

Lemma end_J s : Md s -> i_state s <> inpReady ->
  exists s1 b, (if Nat.eqb (num_can_send (i_port s)) 0 then Ok (w_exit (w_size (close_input s) (SSize 0)), Some false)
    else Ok (close_transport (change (w_cur (w_port (note (w_size (close_input s) (SSize 0)) OEof) (p_send (i_port s))) None 0%N) inpClosed) false, Some false))
    = Ok (s1, Some b) /\ J s1.
Proof.
  intros (A & B & C & D & (E1 & E2) & F) N. assert (P : pend s = []) by (unfold pend; destruct (i_state s); congruence). rewrite P, app_nil_r in D.
  destruct (Nat.eqb (num_can_send (i_port s)) 0) eqn:Z; eexists _, _; (split; [reflexivity|]); unfold J, bal, flags, eofs; flds; rewrite A.
  - repeat split; auto; try discriminate.
    + exists []. cbn [ready sent length]. rewrite app_nil_r. repeat split; auto; try lia; try discriminate.
    + intro G. specialize (C G). apply Nat.eqb_eq in Z. lia.
    + apply F; auto.
  - rewrite B. repeat split; auto; try discriminate.
    + exists []. unfold pend. flds. cbn [ready sent length]. rewrite app_nil_r. repeat split; auto; try lia; try discriminate.
    + intros _ [G|G]; [discriminate|]. revert G. apply F; auto.
    + apply F; auto.
Qed.

Lemma p_tail_ok s : Md s -> exists s1 b, seq_parts [p_ready; p_end] s = Ok (s1, b) /\ J s1.
Proof.
  intro H. cbn [seq_parts]. unfold p_ready. destruct (i_state s) eqn:S.
  12:{ (* send *)
    destruct H as (A & B & C & D & E & F). unfold pend in D. rewrite S in D.
    destruct (Nat.eqb (num_can_send (i_port s)) 0) eqn:Z.
    { cbn [bind]. eexists _, _. split; [reflexivity|]. apply exit_J; auto; [repeat split; auto; unfold pend; try rewrite S; auto; apply E || apply F; auto|].
      intro G. specialize (C G). apply Nat.eqb_eq in Z. lia. }
    cbn [bind]. unfold p_end. flds. cbn [bind]. eexists _, _. split; [reflexivity|].
    unfold J, bal, flags, eofs. flds. rewrite B. repeat split; try discriminate; auto.
    - exists []. unfold pend. flds. cbn [ready]. repeat split; cbn; auto.
      destruct (i_cur s); cbn [sent opt] in *; rewrite D, ?app_nil_r; reflexivity.
    - destruct (i_cur s); cbn; apply E.
    - destruct (i_cur s); cbn; apply E.
    - intros _ [G|G]; [discriminate|]. revert G. apply F; auto.
    - intros _. apply F; auto.
    - apply F; auto. }
  all: cbn [bind]; unfold p_end; rewrite S; cbv zeta; flds.
  all: try (eexists _, _; split; [reflexivity|]; apply Md_J; congruence).
  - destruct (end_J s H) as (s1 & b & R & I); [congruence|]. rewrite R. cbn [bind]. eauto.
  - destruct (end_J s H) as (s1 & b & R & I); [congruence|]. rewrite R. cbn [bind]. eauto.
  - eexists _, _. split; [reflexivity|]. apply J_close; [apply Md_J; congruence|apply H].
Qed.

Lemma seq_cons p l s (P : it -> Prop) :
  (exists s1 o, p s = Ok (s1, o) /\ match o with Some _ => P s1 | None => exists s2 b, seq_parts l s1 = Ok (s2, b) /\ P s2 end) ->
  exists s2 b, seq_parts (p :: l) s = Ok (s2, b) /\ P s2.
Proof.
  intros (s1 & o & E & H). cbn [seq_parts]. rewrite E. cbn [bind]. destruct o as [b|]; [eauto|exact H].
Qed.

Lemma seq_mid p l s : okp2 (p s) ->
  (forall s1, Md s1 -> i_state s1 <> inpReady -> exists s2 b, seq_parts l s1 = Ok (s2, b) /\ J s2) ->
  exists s2 b, seq_parts (p :: l) s = Ok (s2, b) /\ J s2.
Proof.
  intros ((s1 & o & E & H) & N) K. apply seq_cons. exists s1, o. split; [exact E|]. destruct o; [exact H|]. apply K; auto.
Qed.

Lemma process_send_ok s : J s -> i_exit s = false -> can_send (i_port s) = true ->
  exists s1 b, process_send osize ostart ocomp ocb opool ocreate env auto recon s = Ok (s1, b) /\ J s1.
Proof.
  intros HJ X CS. unfold process_send. apply Nat.ltb_lt in CS. pose proof HJ as (HB & N & _ & (E1 & E2) & F). specialize (N X).
  apply seq_cons. unfold p_closed. destruct (i_state s) eqn:S.
  16:{ exists s, (Some false). auto. }
  all: destruct (i_dead s);
    [eexists _, _; split; [reflexivity|]; cbv iota; apply J_close; [apply J_gone; congruence|flds; exact X]|].
  all: eexists s, None; split; [reflexivity|]; cbv iota.
  all: assert (G : forall s0, J s0 -> i_exit s0 = false -> (0 < num_can_send (i_port s0))%nat -> exists s2 b,
     seq_parts [p_noinp; p_init osize ocb env; p_size; p_need opool auto; p_check; p_has ostart ocb env; p_cb; p_compl ocomp env; p_ready; p_end] s0 = Ok (s2, b) /\ J s2).
  all: try (clear s HJ X CS HB N E1 E2 F S; intros s HJ X CS; pose proof HJ as ((r & HB1 & HB2 & HB3) & N & _ & (E1 & E2) & F); specialize (N X);
    apply seq_cons; unfold p_noinp; destruct (i_inp s) eqn:I;
    [|eexists _, _; split; [reflexivity|]; cbv iota; apply J_close; auto];
    assert (HM : Md s) by (repeat split; auto; [rewrite HB1; f_equal; auto| | ]; apply F; auto);
    assert (T : exists s2 b, seq_parts [p_init osize ocb env; p_size; p_need opool auto; p_check; p_has ostart ocb env; p_cb; p_compl ocomp env; p_ready; p_end] s = Ok (s2, b) /\ J s2) by
      (apply seq_mid; [apply p_init_ok; auto|]; intros; apply seq_mid; [apply p_size_ok; auto|]; intros; apply seq_mid; [apply p_need_ok; auto|];
       intros; apply seq_mid; [apply p_check_ok; auto|]; intros; apply seq_mid; [apply p_has_ok; auto|]; intros; apply seq_mid; [apply p_cb_ok; auto|];
       intros s9 M9 N9; apply seq_cons; destruct (p_compl_ok s9 M9 N9) as (sa & o & Ea & Ha); exists sa, o; split; [exact Ea|];
       destruct o; [exact Ha|apply p_tail_ok; exact Ha]);
    destruct (i_state s); eexists s, _; (split; [reflexivity|]); cbv iota; auto).
  all: apply seq_cons; unfold p_recon; rewrite S.
  all: try (exists s, None; split; [reflexivity|]; apply G; auto).
  (* reconnect *)
  destruct (i_inp s) eqn:I. { eexists _, _; split; [reflexivity|]; cbv iota; apply J_close; auto. }
  destruct recon eqn:Rc; cbn [negb]. 2:{ eexists _, _; split; [reflexivity|]; cbv iota; apply J_close; auto. }
  cbv zeta. destruct HB as (r & HB1 & HB2 & HB3).
  destruct (ocreate (i_log s)); eexists _, _; (split; [reflexivity|]); cbv iota; [apply G|]; flds; auto.
  - unfold J, bal, flags, eofs, pend. flds. rewrite X. repeat split; auto; try discriminate; try congruence.
    exists r. cbn [ready sent]. repeat split; auto. intros _. rewrite HB3 by auto. unfold pend. rewrite S. reflexivity.
  - unfold J, bal, flags, eofs, pend. flds. rewrite X. repeat split; auto; try discriminate; try congruence.
    exists r. cbn [ready sent]. repeat split; auto.
Qed.

Lemma out_loop_ok n : forall s, J s -> exists s1 b, out_loop osize ostart ocomp ocb opool ocreate env auto recon n s = Ok (s1, b) /\ J s1.
Proof.
  induction n as [|n IH]; intros s H; cbn [out_loop]; (destruct (active s) eqn:A; [|eauto]);
    unfold active in A; apply andb_prop in A as [A1 A2]; apply andb_prop in A2 as [A2 A3]; apply Bool.negb_true_iff in A1;
    destruct (process_send_ok s H A1 A3) as (s1 & b & E & H1); rewrite E; cbn [bind]; destruct b; eauto.
Qed.
Lemma process_output_ok s : J s -> exists s1 b, process_output osize ostart ocomp ocb opool ocreate env auto recon lim s = Ok (s1, b) /\ J s1.
Proof.
  intro H. unfold process_output. destruct lim as [n|]; [apply out_loop_ok; exact H|]. destruct (active s) eqn:A; [|eauto].
  unfold active in A; apply andb_prop in A as [A1 A2]; apply andb_prop in A2 as [A2 A3]; apply Bool.negb_true_iff in A1.
  destruct (process_send_ok s H A1 A3) as (s1 & b & E & H1); rewrite E; cbn [bind]; eauto.
Qed.

(* changes that touch nothing the invariant speaks about *)
Lemma J_same s s1 : J s -> i_exit s = false ->
  i_inp s1 = i_inp s -> i_exit s1 = i_exit s -> flags s1 -> i_state s1 <> inpReady -> i_log s1 = i_log s -> J s1.
Proof.
  intros ((r & A1 & A2 & A3) & B & C & E & F) X I X1 P S L. unfold J, bal, eofs. rewrite I, X1, L, X. repeat split; auto; try discriminate; try (apply P); try (apply F; assumption).
  exists r. repeat split; auto. intros _. rewrite A3 by exact X. specialize (B X). unfold pend. destruct (i_state s), (i_state s1); congruence.
Qed.
Lemma J_note s s1 o : J s -> i_exit s = false -> dull o = true ->
  i_inp s1 = i_inp s -> i_exit s1 = i_exit s -> flags s1 -> i_state s1 <> inpReady -> i_log s1 = o :: i_log s -> J s1.
Proof.
  intros ((r & A1 & A2 & A3) & B & C & E & F) X W I X1 P S L. destruct (dull_ready o (i_log s) W) as (R1 & R2 & R3 & R4).
  unfold J, bal, eofs. rewrite I, X1, L, X. repeat split; auto; try discriminate; try (apply P).
  - exists r. rewrite R1, R2. repeat split; auto. intros _. rewrite A3 by exact X. specialize (B X). unfold pend. destruct (i_state s), (i_state s1); congruence.
  - intros I1 [G|G]; [congruence|]. revert G. apply F; auto.
  - rewrite R3. discriminate.
  - apply F; auto.
Qed.

Lemma callback_ok s c : J s -> i_exit s = false -> J (read_callback s c).
Proof.
  intros H X. pose proof H as ((r & A1 & A2 & A3) & B & C & E & F). unfold read_callback. cbv zeta.
  set (s0 := note s (OCall c)).
  assert (L0 : i_log s0 = OCall c :: i_log s /\ i_inp s0 = i_inp s /\ i_exit s0 = i_exit s /\ i_port s0 = i_port s) by (unfold s0; flds; auto).
  set (s1 := match c with SQueue => _ | _ => s0 end).
  assert (L1 : i_log s1 = OCall c :: i_log s /\ i_inp s1 = i_inp s /\ i_exit s1 = i_exit s /\ i_port s1 = i_port s).
  { unfold s1. destruct c; auto. destruct (Nat.eqb (i_ext s0) 0); flds; auto. }
  clearbody s1. clear L0 s0. destruct L1 as (L & I & X1 & P).
  assert (Fl : flags s1) by (unfold flags; rewrite P; exact E).
  destruct (i_state s1) eqn:S; try (eapply (J_note s _ (OCall c)); eauto; unfold flags; flds; auto; congruence).
  destruct (Nat.eqb (i_ext s1) 0); [|eapply (J_note s _ (OCall c)); eauto; unfold flags; flds; auto; congruence].
  unfold J, bal, flags, eofs. flds. rewrite L, I, P. repeat split; try discriminate; try (apply E).
  - exists r. cbn [ready sent]. repeat split; auto; discriminate.
  - eauto.
  - intros I1 [G|[G|G]]; try discriminate. revert G. apply F; auto.
  - apply F; auto.
Qed.

Lemma stop_fields s : i_log (stop_transport s) = i_log s /\ i_inp (stop_transport s) = i_inp s /\ i_exit (stop_transport s) = i_exit s /\
  i_port (stop_transport s) = i_port s /\ i_state (stop_transport s) = i_state s.
Proof. unfold stop_transport, base_stop. destruct (suitable _); [|repeat split]. change (i_run (w_stop s false)) with (i_run s). destruct (i_run s); repeat split. Qed.

Lemma step_ok s e : J s -> exists s1, step osize ostart ocomp ocb opool ocreate env auto recon lim s e = Ok s1 /\ J s1.
Proof.
  intro H. unfold step. destruct (i_exit s) eqn:X; [eauto|]. pose proof H as (_ & B & _ & E & F). specialize (B X).
  assert (Po : forall s0, J s0 -> exists s1, (do (s2, _) <- process_output osize ostart ocomp ocb opool ocreate env auto recon lim s0; Ok s2) = Ok s1 /\ J s1).
  { intros s0 H0. destruct (process_output_ok s0 H0) as (s1 & b & R & H1). rewrite R. cbn [bind]. eauto. }
  destruct e.
  - apply Po; exact H.
  - destruct (i_timer s); [|eauto]. cbv zeta.
    assert (H0 : J (w_timer s false)) by (eapply J_same; eauto).
    destruct (i_run (w_timer s false)); [|eauto]. unfold process_timer. cbv zeta. apply Po.
    flds. destruct (i_state s) eqn:S; flds; rewrite ?S; try exact H0; (eapply J_same; [exact H|..]; unfold flags; flds; auto; congruence).
  - destruct (i_run s); [|eauto]. unfold process_buffer. destruct (i_state s) eqn:S; eauto. destruct (opool (i_log s)); eauto.
    apply Po. eapply (J_note s _ (OTake n)); eauto; unfold flags; flds; auto. congruence.
  - eexists. split; [reflexivity|]. apply callback_ok; auto.
  - eexists. split; [reflexivity|]. unfold process_closed. cbv zeta.
    assert (H1 : J (match i_state s with inpClosed => s | _ => change (close_input s) inpClosed end) /\
      i_exit (match i_state s with inpClosed => s | _ => change (close_input s) inpClosed end) = false)
      by (destruct (i_state s); flds; split; auto; apply J_gone; auto; congruence).
    destruct H1 as [H1 X1]. destruct recon; cbn [negb].
    + eapply J_same; [exact H1|..]; unfold flags; flds; auto; try congruence; apply H1.
    + apply J_close; auto.
  - eexists. split; [reflexivity|]. unfold start_transport. destruct (i_tr s); cbv zeta; try exact H; flds;
      (destruct (i_inp s) eqn:I; apply (J_same s); unfold flags; flds; auto).
  - eexists. split; [reflexivity|]. destruct (i_tr s); auto. destruct (stop_fields s) as (S1 & S2 & S3 & S4 & S5).
    eapply J_same; [exact H|..]; unfold flags; flds; rewrite ?S1, ?S2, ?S3, ?S4, ?S5; auto.
  - eexists. split; [reflexivity|]. eapply J_same; [exact H|..]; unfold flags; flds; auto. destruct (port_flags (i_port s) e) as [-> ->]. exact E.
  - eexists. split; [reflexivity|]. eapply J_same; [exact H|..]; unfold flags; flds; auto.
Qed.

Lemma run_ok l : forall s, J s -> exists s1, run osize ostart ocomp ocb opool ocreate env auto recon lim s l = Ok s1 /\ J s1.
Proof.
  induction l as [|e l IH]; intros s H; cbn [run]; [eauto|].
  destruct (step_ok s e H) as (s1 & E & H1). rewrite E. cbn [bind]. auto.
Qed.

Lemma J_new cap : J (it_new cap bc bu).
Proof.
  unfold J, bal, flags, eofs. cbn. repeat split; auto; try discriminate. exists []. auto.
Qed.
End R.
