(* Model of where the bytes of a request live: the read loops of
   znet/connection.go 239-285, znet/kcp_connection.go 230-270 and
   znet/ws_connection.go 224-269, the decoder's buffer (zinterceptor/framedecoder.go
   578-598) and the decoders' copies (zdecoder), on the heap of GoSlice.v.  Reader.v models
   the same code with values. *)
From Coq Require Import ZArith List Bool.
From Verif Require Import Bytes Pack FrameDecoder Chain Decoders Reader GoSlice.
Import ListNotations.

(* The three kinds of connection, and the decoder of the server or client (Server.SetDecoder;
   DNone is SetDecoder(nil)). *)
Inductive link := Tcp | Kcp | Ws.
Inductive dec := DNone | DTlv | DLtv | DHtlv.

(* A read that delivers these bytes; a look, by whoever holds the request, at message i's
   data; a store into message i's data at index o.  Messages are numbered as delivered. *)
Inductive plabel := PRead (chunk : list byte) | PLook (i : nat) | PWrite (i o : nat) (b : byte).
Inductive pev := Saw (i : nat) (id : Z) (data : list byte).

Section Payload.
  Variable grow : nat -> nat -> nat.     (* Go's append: how much room it adds *)
  Variable k : link.
  Variable d : dec.
  Variable size : nat.                   (* zconf.GlobalObject.IOReadBuffSize *)

  Record pst := Pst {
    p_heap : list (list byte);
    p_buf : slice;                       (* connection.go 239: buffer *)
    p_in : slice;                        (* framedecoder.go 315: FrameDecoder.in *)
    p_fd : option fdec;                  (* the decoder's other fields; its fd_in is not used *)
    p_msgs : list (Z * slice);           (* messages handed to the handlers: ID, Data *)
    p_up : bool                          (* the reader goroutine runs *)
  }.

  (* znet/connection.go 139-142 (kcp 137-140, ws 134-137): a frame decoder if the server's
     decoder has a length field. *)
  Definition field_of : option length_field :=
    match d with DNone => None | DTlv => Some tlv_length_field | DLtv => Some ltv_length_field | DHtlv => Some htlv_length_field end.
  (* connection.go 239 allocates the buffer before the loop; framedecoder.go 335 the
     decoder's. *)
  Definition p_new : pst :=
    let (h, b) := match k with Tcp => sl_make x00 [] size 0 | _ => ([], nil_slice) end in
    let (h', i) := match d with DNone => (h, nil_slice) | _ => sl_make x00 h 0 0 end in
    Pst h' b i (option_map new_frame_decoder field_of) [] true.

  (* s[0:n]. *)
  Definition sl_upto (s : slice) (n : nat) : slice := Slice (sl_arr s) (sl_off s) n (sl_cap s).
  (* The bytes read and where they are: connection.go 249 reads into the one buffer;
     kcp_connection.go 230-234 into a new one; ws_connection.go 224: ReadMessage returns a
     new slice. *)
  Definition receive (h : list (list byte)) (buf : slice) (chunk : list byte) : list (list byte) * slice :=
    match k with
    | Tcp => (sl_copy h buf chunk, sl_upto buf (length chunk))
    | Kcp => let (h', b) := sl_make x00 h size 0 in (sl_copy h' b chunk, sl_upto b (length chunk))
    | Ws => let (h', b) := sl_make x00 h (length chunk) 0 in (sl_copy h' b chunk, b)
    end.
  (* Does Read deliver that many bytes?  (ReadMessage has no such limit.) *)
  Definition fits (chunk : list byte) : bool := match k with Ws => true | _ => length chunk <=? size end.

  (* framedecoder.go 572-573: make and Read, a copy of the frame. *)
  Definition sl_dup (h : list (list byte)) (bs : list byte) : list (list byte) * slice :=
    let (h', s) := sl_make x00 h (length bs) 0 in (sl_copy h' s bs, s).
  (* framedecoder.go 583-597: the loop of Decode. *)
  Fixpoint m_loop (fuel : nat) (h : list (list byte)) (i : slice) (fd : fdec) : list (list byte) * slice * fdec * option (list slice) :=
    match fuel with
    | O => (h, i, fd, None)
    | S fuel' =>
      match decode1 (set_in fd (sl_read h i)) (sl_read h i) with
      | D1Panic => (h, i, fd, None)
      | D1None fd' => (h, i, fd', Some [])
      | D1Frame fd' f =>
        let (h', s) := sl_dup h f in
        let n := Z.to_nat (zlen f + fd_strip fd') in
        let i' := if (0 <? zlen f + fd_strip fd')%Z then sl_from i n else i in
        match m_loop fuel' h' i' fd' with
        | (h'', i'', fd'', Some fs) => (h'', i'', fd'', Some (s :: fs))
        | r => r
        end
      end
    end.

  (* A decoder's Intercept on the message whose data is s: message ID and data it leaves;
     None is a panic.  tlvdecoder.go 97-144 and ltvdecoder_little.go 98-144 copy the value;
     htlvcrcdecoder.go 92-146 leaves the data alone. *)
  Definition m_decode (h : list (list byte)) (s : slice) : option (list (list byte) * Z * slice) :=
    let bs := sl_read h s in
    match d with
    | DNone => Some (h, 0%Z, s)
    | DTlv =>
      if (zlen bs <? 8)%Z then Some (h, 0%Z, s)
      else match tlv_decode bs with Some (tag, _, v) => let (h', s') := sl_dup h v in Some (h', tag, s') | None => None end
    | DLtv =>
      if (zlen bs <? 8)%Z then Some (h, 0%Z, s)
      else match ltv_decode bs with Some (_, tag, v) => let (h', s') := sl_dup h v in Some (h', tag, s') | None => None end
    | DHtlv =>
      if (zlen bs <? 5)%Z then Some (h, 0%Z, s)
      else match htlv_decode bs with HtlvOk _ f _ _ _ => Some (h, b2z f, s) | _ => None end
    end.
  (* connection.go 271-284: a message per frame; the handlers get it.  false: a panic. *)
  Fixpoint m_dispatch (h : list (list byte)) (fs : list slice) : list (list byte) * list (Z * slice) * bool :=
    match fs with
    | [] => (h, [], true)
    | s :: fs' =>
      match m_decode h s with
      | None => (h, [], false)
      | Some (h', id, s') => let '(h'', ms, ok) := m_dispatch h' fs' in (h'', (id, s') :: ms, ok)
      end
    end.

  Definition p_step (s : pst) (l : plabel) : pst * list pev :=
    match l with
    | PRead chunk =>
      if p_up s && fits chunk then
        let (h1, b) := receive (p_heap s) (p_buf s) chunk in
        match p_fd s with
        | None => let '(h2, ms, ok) := m_dispatch h1 [b] in (Pst h2 (p_buf s) (p_in s) None (p_msgs s ++ ms) ok, [])
        | Some fd =>
          (* framedecoder.go 580: d.in = append(d.in, buff...) *)
          let (h2, i) := sl_append x00 grow h1 (p_in s) (sl_read h1 b) in
          match m_loop (S (S (length (sl_read h2 i)))) h2 i fd with
          | (h3, i', fd', None) => (Pst h3 (p_buf s) i' (Some fd') (p_msgs s) false, [])
          | (h3, i', fd', Some fs) => let '(h4, ms, ok) := m_dispatch h3 fs in (Pst h4 (p_buf s) i' (Some fd') (p_msgs s ++ ms) ok, [])
          end
        end
      else (s, [])
    | PLook i =>
      match nth_error (p_msgs s) i with Some (id, x) => (s, [Saw i id (sl_read (p_heap s) x)]) | None => (s, []) end
    | PWrite i o b =>
      match nth_error (p_msgs s) i with
      | Some (_, x) => if o <? sl_len x then (Pst (sl_write (p_heap s) x o [b]) (p_buf s) (p_in s) (p_fd s) (p_msgs s) (p_up s), []) else (s, [])
      | None => (s, [])
      end
    end.
  Fixpoint p_run (s : pst) (ls : list plabel) : pst * list pev :=
    match ls with
    | [] => (s, [])
    | l :: ls' => let (s1, e1) := p_step s l in let (s2, e2) := p_run s1 ls' in (s2, e1 ++ e2)
    end.
End Payload.
