[
 {
  "file": "Qix",
  "definition": "qix_write",
  "old": "be_bytes 8 (q_id f) ++ q_key f ++ [0x01%N]",
  "new": "be_bytes 8 (q_id f) ++ q_key f ++ [0x00%N]",
  "edit": "wrong status byte written",
  "claim": "C31",
  "breaks": "written frames are not read back",
  "id": "qix-1"
 },
 {
  "file": "Qix",
  "definition": "qix_write",
  "old": "be_bytes 4 (crc32 body)",
  "new": "be_bytes 4 (crc32 (q_key f))",
  "edit": "CRC over the key only",
  "claim": "C31",
  "breaks": "written frames are not read back",
  "id": "qix-2"
 },
 {
  "file": "Qix",
  "definition": "qix_write",
  "old": "if length (q_key f) =? 32 then",
  "new": "if length (q_key f) =? 31 then",
  "edit": "wrong key length",
  "claim": "C31",
  "breaks": "frames cannot be written",
  "id": "qix-3"
 },
 {
  "file": "Qix",
  "definition": "find_sync",
  "old": "[a] => if (a =? q_sync1)%N then 0 else 1",
  "new": "[a] => 1",
  "edit": "a start byte at the end of the buffer is dropped",
  "claim": "C31",
  "breaks": "a frame split there is lost",
  "id": "qix-4"
 },
 {
  "file": "Qix",
  "definition": "find_sync",
  "old": "else S (find_sync rest)",
  "new": "else find_sync rest",
  "edit": "discarded bytes not counted",
  "claim": "C31",
  "breaks": "stream position wrong",
  "id": "qix-5"
 },
 {
  "file": "Qix",
  "definition": "find_sync",
  "old": "(a =? q_sync1) && (b =? q_sync2)",
  "new": "(a =? q_sync1) || (b =? q_sync2)",
  "edit": "either start byte is enough",
  "claim": "C31",
  "breaks": "false starts, lost frames",
  "id": "qix-6"
 },
 {
  "file": "Qix",
  "definition": "get_status",
  "old": "if (v =? 0x01)%N then q_ok",
  "new": "if (v <=? 0x01)%N then q_ok",
  "edit": "status 0 accepted",
  "claim": "C31",
  "breaks": "a frame with undefined status is delivered",
  "id": "qix-7"
 },
 {
  "file": "Qix",
  "definition": "copy_down",
  "old": "Ok (skipn d buf ++ skipn n buf)",
  "new": "Ok (firstn n buf ++ skipn n buf)",
  "edit": "the remainder is not moved",
  "claim": "C31",
  "breaks": "frames lost or invented after a gap",
  "id": "qix-8"
 },
 {
  "file": "Qix",
  "definition": "copy_down",
  "old": "(d <? n) then UB",
  "new": "(d <=? n) then UB",
  "edit": "adjacent regions treated as overlapping",
  "claim": "C31",
  "breaks": "(model only: changes the domain of the defined runs)",
  "id": "qix-9"
 },
 {
  "file": "Qix",
  "definition": "read_fields",
  "old": "q_id := be_value (firstn 8 payload)",
  "new": "q_id := be_value (firstn 4 payload)",
  "edit": "identifier read as 4 bytes",
  "claim": "C31",
  "breaks": "wrong identifier",
  "id": "qix-10"
 },
 {
  "file": "Qix",
  "definition": "read_fields",
  "old": "q_key := firstn 32 after_id",
  "new": "q_key := firstn 32 payload",
  "edit": "key read at the wrong offset",
  "claim": "C31",
  "breaks": "wrong key",
  "id": "qix-11"
 },
 {
  "file": "Qix",
  "definition": "qix_parse",
  "old": "Ok (None, {| qp_buffered := remaining; qp_buffer := buf |})",
  "new": "Ok (None, {| qp_buffered := 0; qp_buffer := buf |})",
  "edit": "kept bytes not counted",
  "claim": "C31",
  "breaks": "the frame after a gap is lost",
  "id": "qix-12"
 },
 {
  "file": "Qix",
  "definition": "qix_parse",
  "old": "if (calc =? actual)%N then",
  "new": "if true then",
  "edit": "CRC not checked",
  "claim": "C31",
  "breaks": "a corrupted key is delivered",
  "id": "qix-13"
 },
 {
  "file": "Qix",
  "definition": "qix_parse",
  "old": "firstn q_crc_size (skipn 2 (qp_buffer p))",
  "new": "firstn q_crc_size (qp_buffer p)",
  "edit": "CRC over the wrong region",
  "claim": "C31",
  "breaks": "no frame delivered",
  "id": "qix-14"
 },
 {
  "file": "Qix",
  "definition": "read_some",
  "old": "match q_status fr with q_ok => Some fr | _ => None end",
  "new": "Some fr",
  "edit": "status not checked by the reader",
  "claim": "C31",
  "breaks": "compromised keys delivered",
  "id": "qix-15"
 },
 {
  "file": "Qix",
  "definition": "read_some",
  "old": "qr_dest := qp_buffered p'",
  "new": "qr_dest := 0",
  "edit": "kept bytes overwritten",
  "claim": "C31",
  "breaks": "the frame after a gap is lost",
  "id": "qix-16"
 },
 {
  "file": "Qix",
  "definition": "read_some",
  "old": "if qr_dest r + length bytes <? length buf",
  "new": "if qr_dest r + length bytes <=? length buf",
  "edit": "a full buffer is not parsed",
  "claim": "C31",
  "breaks": "nothing is delivered",
  "id": "qix-17"
 },
 {
  "file": "Qix",
  "definition": "map_put",
  "old": "if (id <? i)%N then (id, v) :: m",
  "new": "if (id <=? i)%N then (id, v) :: m",
  "edit": "an identifier is stored twice",
  "claim": "C32",
  "breaks": "a key can be handed out twice",
  "id": "qix-18"
 },
 {
  "file": "Qix",
  "definition": "map_erase",
  "old": "negb (fst e =? id)%N",
  "new": "(fst e =? id)%N",
  "edit": "the others are erased",
  "claim": "C32",
  "breaks": "keys used twice",
  "id": "qix-19"
 },
 {
  "file": "Qix",
  "definition": "map_last",
  "old": "| _ :: m' => map_last m'",
  "new": "| e :: _ => Some e",
  "edit": "lowest instead of highest",
  "claim": "C32",
  "breaks": "consume gives the oldest key",
  "id": "qix-20"
 },
 {
  "file": "Qix",
  "definition": "add_key",
  "old": "if (q_id f <? hi)%N then []",
  "new": "if (q_id f <=? hi)%N then []",
  "edit": "equal identifier clears the store",
  "claim": "C32",
  "breaks": "keys lost without going backwards",
  "id": "qix-21"
 },
 {
  "file": "Qix",
  "definition": "add_key",
  "old": "if (q_id f <? hi)%N then [] else m",
  "new": "m",
  "edit": "no clearing on going backwards",
  "claim": "C32",
  "breaks": "keys of the previous series survive",
  "id": "qix-22"
 },
 {
  "file": "Qix",
  "definition": "add_key",
  "old": "if max <? length m2 then tl m2",
  "new": "if max <? length m2 then m2",
  "edit": "no limit",
  "claim": "C32",
  "breaks": "memory grows",
  "id": "qix-23"
 },
 {
  "file": "Qix",
  "definition": "add_key",
  "old": "if max <? length m2",
  "new": "if max <=? length m2",
  "edit": "limit off by one",
  "claim": "C32",
  "breaks": "keys dropped although there is room",
  "id": "qix-24"
 },
 {
  "file": "Qix",
  "definition": "consume_key",
  "old": "(Some (id, k), map_erase m id)",
  "new": "(Some (id, k), m)",
  "edit": "consumed key stays",
  "claim": "C32",
  "breaks": "key used twice",
  "id": "qix-25"
 },
 {
  "file": "Qix",
  "definition": "find_and_consume_key",
  "old": "(k, map_erase m id)",
  "new": "(k, m)",
  "edit": "found key stays",
  "claim": "C32",
  "breaks": "key used twice",
  "id": "qix-26"
 },
 {
  "file": "Qix",
  "definition": "find_and_consume_key",
  "old": "(k, map_erase m id)",
  "new": "(k, [])",
  "edit": "everything is dropped",
  "claim": "C32",
  "breaks": "other keys lost",
  "id": "qix-27"
 },
 {
  "file": "Qix",
  "definition": "make_key",
  "old": "if length k =? 32 then",
  "new": "if length k <=? 64 then",
  "edit": "key length not checked",
  "claim": "C32",
  "breaks": "a short key is handed out",
  "id": "qix-28"
 },
 {
  "file": "Qix",
  "definition": "handle",
  "old": "u16 (q_id f mod src_subscribers s)",
  "new": "u16 (q_id f)",
  "edit": "no modulo",
  "claim": "C42",
  "breaks": "wrong subscriber",
  "id": "qix-29"
 },
 {
  "file": "Qix",
  "definition": "handle",
  "old": "if (sub_id x =? id)%N then",
  "new": "if true then",
  "edit": "key goes to everyone",
  "claim": "C42",
  "breaks": "key used by two subscribers",
  "id": "qix-30"
 },
 {
  "file": "Qix",
  "definition": "handle",
  "old": "if negb (length (q_key f) =? 32) then Ok s",
  "new": "if false then Ok s",
  "edit": "length not checked",
  "claim": "C42",
  "breaks": "(the key would be stored as null)",
  "id": "qix-31"
 },
 {
  "file": "Qix",
  "definition": "bind_key_store",
  "old": "if existsb (fun x => (sub_id x =? modulo)%N) (src_stores s) then None",
  "new": "if false then None",
  "edit": "a second store for a subscriber",
  "claim": "C42",
  "breaks": "both receive the key",
  "id": "qix-32"
 }
]