(* Model of choosing a packet format: the options of NewServer and NewClient and the setters
   (znet/options.go 11-44; znet/server.go 145-148 and 169-171: default packer, options applied in order,
   525-527: SetPacket; znet/client.go 65-66, 71-74, 89-90, 97-99, 293-295), on top of Endpoint.v.  A packer is the
   function its Pack method computes; WithNameClient and WithUrl change nothing modelled here. *)
From Coq Require Import ZArith List.
From Verif Require Import Bytes Pack FrameDecoder Chain Decoders Reader Endpoint.
Import ListNotations.

Definition packer := message -> list byte.
Record format := Fmt { fm_pack : packer; fm_end : endpoint }.
Inductive fop :=
| FPacket (p : packer)  (* options.go 16-20, 27-31; server.go 525-527, client.go 293-295 *)
| FOther                (* options.go 34-44 *)
| FEnd (o : eop).       (* SetDecoder, AddInterceptor, Start, Restart *)
(* server.go 145-148, client.go 65-66, 89-90 *)
Definition new_format : format := Fmt (fst (new_pack ZinxDataPack)) new_endpoint.
Definition format_op (endpoint_op : endpoint -> eop -> endpoint) (s : format) (o : fop) : format :=
  match o with
  | FPacket p => Fmt p (fm_end s)
  | FOther => s
  | FEnd e => Fmt (fm_pack s) (endpoint_op (fm_end s) e)
  end.
(* options first, in their order, then the calls *)
Definition server_made (opts ops : list fop) : format := fold_left (format_op server_op) (opts ++ ops) new_format.
Definition client_made (opts ops : list fop) : format := fold_left (format_op client_op) (opts ++ ops) new_format.
(* SendMsg and SendBuffMsg pack with it (connection.go 441, 457); what a connection reads with. *)
Definition sends (s : format) (msgs : list (Z * list byte)) : list byte := wire (fm_pack s) msgs.
Definition reads_with (s : format) : reader := reader_of (fm_end s).
