import json
M=[]
def m(id,definition,old,new,edit,claim,breaks,**k):
    d=dict(id=id,file='Endpoint',definition=definition,old=old,new=new,edit=edit,claim=claim,breaks=breaks); d.update(k); M.append(d)
m('ep-1','try_read_one','''       | Some _ => Ok (s1, [], q)
       | None =>''','''       | Some _ | None =>''','messages are read although a payload is waiting','C34,C25','payload overwritten before it is read')
m('ep-2','begin_transmit','set_remainder (set_transmitting s true) rest','set_transmitting s true','remainder not shortened after a chunk','C33','the same chunk is sent again')
m('ep-3','check_transmit','if negb (in_ready inp && tx_ready s1) then','if negb (in_ready inp) then','transmits although a transmission of the buffer is in progress or nothing remains','C33,C41','empty data messages')
m('ep-4','check_transmit','if negb (in_ready inp && tx_ready s1) then','if negb (tx_ready s1) then','transmits although the lower layer is busy','C41','two transmissions at once')
m('ep-5','activate','set_pending (set_active s (ep_pending s)) (reset (ep_active s))','set_pending (set_active s (ep_pending s)) (ep_pending s)','pending session stays valid after it became active','C14,C15,C24,C25,C28','the authentication message can be replayed against the pending copy')
m('ep-6','enter','Ok (set_payload s2 None, [IUpClose; ICloseTail], [EvClosed])','Ok (s2, [IUpClose; ICloseTail], [EvClosed])','payload kept over a close','C28,C34','data of the closed connection is delivered later')
m('ep-7','exec','Ok (set_proc (set_remainder (set_transmitting s false) [])','Ok (set_proc (set_transmitting s false)','transmit buffer kept over a close','C28,C33','data of the closed connection is sent later')
m('ep-8','enter','let s2 := set_pending (set_active s1 (reset (ep_active s1))) (reset (ep_pending s1)) in','let s2 := set_pending s1 (reset (ep_pending s1)) in','active session kept over a close','C28','old keys usable after reconnect')
m('ep-9','reset_state_on_close','set_required (set_session_timer (set_timer (set_state s Idle) None) false) false','set_required (set_session_timer (set_state s Idle) false) false','response timer not cancelled on close','C27','timer fires in the wrong state')
m('ep-10','on_auth_message','let s3 := start_session_timer (set_required (activate s2) false) in','let s3 := set_required (activate s2) false in','session timer not started','C27','session never renegotiated, nothing pending')
m('ep-11','on_auth_message','let s3 := start_session_timer (set_required (activate s2) false) in','let s3 := start_session_timer (activate s2) in','handshake-required flag not cleared','C27','flag set while the session timer runs')
m('ep-12','exec','| IUpOpen => if ep_up s then Ok (s, [], []) else notify (set_up s true) inp EvUpOpen','| IUpOpen => notify (set_up s true) inp EvUpOpen','open notified again on renegotiation','C26','two opens in a row')
m('ep-13','process_message','| inl msg => if (am_nonce (sd_metadata msg) =? 0)%N then on_auth_session C s msg inp else on_session_data C s msg inp','| inl msg => if (am_nonce (sd_metadata msg) =? 0)%N then on_session_data C s msg inp else on_auth_session C s msg inp','dispatch on nonce inverted in the responder','C25,C14','data accepted as authentication')
m('ep-14','on_error_message','| WaitForBeginReply | WaitForAuthReply => Ok (retry (set_timer s None), [], [])','| WaitForBeginReply | WaitForAuthReply => Ok (retry s, [], [])','timer not cancelled before retry','C27','two timers running')
m('ep-15','on_error_message','| WaitForBeginReply | WaitForAuthReply => Ok (retry (set_timer s None), [], [])','| WaitForBeginReply | WaitForAuthReply => Ok (retry (set_timer (set_active s (reset (ep_active s))) None), [], [])','an error message resets the active session','C24','unauthenticated message destroys a session')
m('ep-16','on_request','let s1 := set_pending s pending\' in\n    match r with','let s1 := set_active (set_pending s pending\') (reset (ep_active s)) in\n    match r with','a handshake request resets the active session','C24','unauthenticated message destroys a session')
m('ep-17','on_retry_timeout','match ep_state s with WaitForRetry => set_state s Idle | _ => s end','s','retry timeout does not leave the retry state','C27','initiator stuck')
m('ep-18','exec','| Initiator _ => Ok (s, if ep_required s then [IHandshakeRequired] else [], [])','| Initiator _ => Ok (s, [], [])','remembered handshake not started when the lower layer is ready','C27','initiator stuck')
m('ep-19','start_rx','if ep_proc s then set_proc (set_payload s None) false else s','if ep_proc s then set_proc s false else s','payload not discarded after it was read','C34','payload delivered twice')
m('ep-20','start_tx','if ep_open s && ep_up s && tx_idle s','if ep_open s && ep_up s && negb (ep_transmitting s)','new buffer accepted while part of the old one remains','C33','rest of the old buffer lost')
m('ep-21','start_tx','if ep_open s && ep_up s && tx_idle s','if ep_open s && tx_idle s','buffer accepted before the layer is open','C28,C33','data accepted without session')
m('ep-22','enter','let complete := ep_transmitting s0 && is_empty (ep_remainder s0) in','let complete := ep_transmitting s0 in','ready notified although part of the buffer remains','C33','application told ready too early')
m('ep-23','transmit_session_auth','let s1 := if is_empty (ep_remainder s) then s else begin_transmit s rest in','let s1 := s in','data in the authentication message not taken off the buffer','C33','data sent twice')
m('ep-24','on_session_data','let* (r, active\', _) := validate_session_data (c_env C) (ep_active s) msg (in_now inp) (c_payload_size C) in\n  let s1 := set_buffer (set_active s active\')','let* (r, active\', _) := validate_session_data (c_env C) (ep_active s) msg (in_now inp) (c_payload_size C) in\n  let s1 := set_buffer s','updated receive nonce not stored','C14','replay accepted')
m('ep-25','check_transmit','Ok (started (begin_transmit (set_active s1 active\') rest) inp, [INonceChange],','Ok (started (begin_transmit s1 rest) inp, [INonceChange],','updated transmit nonce not stored','C15','nonce reused')
m('ep-26','on_auth_message','match ep_state s with\n  | WaitForAuthReply =>','match ep_state s with\n  | WaitForAuthReply | WaitForBeginReply =>','authentication accepted before the reply','C27,C25','authentication in the wrong state')
m('ep-27','on_handshake_required','| _ => Ok (set_required s true, [], [])\n  end.','| _ => Ok (s, [], [])\n  end.','handshake required while one is in progress is forgotten','C27','nothing pending afterwards')
m('ep-28','on_reply_message','else Ok (set_state (start_timer s4 TResponse) WaitForAuthReply, [], [EvKeys pending\'] ++ ev)','else Ok (set_state s4 WaitForAuthReply, [], [EvKeys pending\'] ++ ev)','no response timer for the authentication','C27','initiator waits for ever')
m('ep-29','enter','| LowerClose =>\n      if ep_open s then','| LowerClose =>\n      if ep_open s && ep_up s then','close ignored before a session is established','C28,C27','handshake state kept over a close')
m('ep-30','on_auth_session','if negb (s_valid (ep_pending s)) then reply_error C s he_no_prior_handshake_begin inp','if false then reply_error C s he_no_prior_handshake_begin inp','authentication processed without a handshake','C25','authentication under no derived keys')
json.dump(M,open('/verif/tools/mutants3.json','w'),indent=1)
