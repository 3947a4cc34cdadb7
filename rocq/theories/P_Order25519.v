(** The orders of curve25519 and of its twist. *)
From Coq Require Import ZArith Znumtheory Field Lia Bool List.
From Verif Require Import P_Prime P_Mod S_Curve P_Curve P_Square P_Group P_Order S_X25519 P_X25519 P_X25519M P_X25519D.
Import ListNotations.
Open Scope Z_scope.

(** ** The two primes *)
Definition ell : Z := 2 ^ 252 + 27742317777372353535851937790883648493.
Definition ell' : Z := 2 ^ 253 - 55484635554744707071703875581767296995.
Definition certs_ell : list (Z * list Z) :=
  [ (2551, []); (1224481, [2551]); (531581, []); (1257559732178653, [1224481; 531581]); (4434155615661930479, [1257559732178653]);
    (172054593956031949258510691, [4434155615661930479]); (19757330305831588566944191468367130476339, [172054593956031949258510691]);
    (276602624281642239937218680557139826668747, [19757330305831588566944191468367130476339]);
    (7237005577332262213973186563042994240857116359379907606001950938285454250989, [276602624281642239937218680557139826668747]) ].
Definition certs_ell' : list (Z * list Z) :=
  [ (28859, []); (2281, []); (5171003929967, [28859; 2281]); (22561162540501040539, [5171003929967]); (8053, []); (3911, []);
    (1013266244677, [8053; 3911]); (203852586375664218368381551393371968928013, [22561162540501040539; 1013266244677]);
    (104719073621178708975837602950775180438320278101, [203852586375664218368381551393371968928013]);
    (27413359092552162435694767700453926735143482401279781, [104719073621178708975837602950775180438320278101]);
    (14474011154664524427946373126085988481603263447650325797860494125407373907997, [27413359092552162435694767700453926735143482401279781]) ].
Lemma certs_ell_ok : check_cert [] certs_ell = true.
Proof. vm_compute. reflexivity. Qed.
Lemma certs_ell'_ok : check_cert [] certs_ell' = true.
Proof. vm_compute. reflexivity. Qed.
Lemma prime_ell : prime ell.
Proof.
  apply (check_cert_spec certs_ell []); [intros q []|exact certs_ell_ok|].
  do 8 right. left. reflexivity.
Qed.
Lemma prime_ell' : prime ell'.
Proof.
  apply (check_cert_spec certs_ell' []); [intros q []|exact certs_ell'_ok|].
  do 10 right. left. reflexivity.
Qed.

(** ** Two points whose multiples by these primes are infinity *)
(** An approximation of x modulo p25519 *)
Definition fold25519 (x : Z) : Z := let q := Z.shiftr x 255 in x - Z.shiftl q 255 + 19 * q.
Definition red25519 (x : Z) : Z := fold25519 (fold25519 x).
Lemma fold25519_ok x : fof p25519 (fold25519 x) = fof p25519 x.
Proof.
  unfold fold25519. cbv zeta. rewrite Z.shiftl_mul_pow2 by lia. apply fof_eq.
  replace (x - Z.shiftr x 255 * 2 ^ 255 + 19 * Z.shiftr x 255) with (x - Z.shiftr x 255 * p25519) by (unfold p25519; ring).
  generalize p25519 (Z.shiftr x 255). intros p q. rewrite <- (Z_mod_plus_full (x - q * p) q p). f_equal. ring.
Qed.
Lemma red25519_ok x : fof p25519 (red25519 x) = fof p25519 x.
Proof. unfold red25519. now rewrite !fold25519_ok. Qed.
(** Slopes for the multiple l - 1 of the point (9, base_y) of curve25519 *)
Definition chain25519 : list (Z * (Z * Z)) :=
 [ (0x1790f520c6645bdc6192b7da46c9382a5b9d8bf3e856a96e2c7018bc46f38534, (0, 0));
   (0x63ffcf7b6ff7778935ee6fb427382f91f6590599effc3ea0cf4f3d65eef5f928, (0, 0));
   (0x3391098600d78bfe10f37fbb4063209f0c4973c758e3237d6bd6b2b30457521, (0, 0));
   (0x1389933ef6457b11896600082ffc19e5d70c33080808b1d34349e2c964746339, (0, 0));
   (0x7c845807c11b75d464a3da01cc16fd48f0e940254bbe2d21409231ee03260da6, (0, 0));
   (0x20bbf51da747eb2ffa6850cadf7ac7c8a2b5f01265c3eb99bc9b2c0b09ba752e, (0, 0));
   (0x518f303625974acdedb2f38f6b8b75b00469aa79bf5a92ccc4ab83a982148f7b, (0, 0));
   (0xce20880bf02698ee3bbe39b37f233b5cf2558a425eee3203ac7c476fdab1760, (0, 0));
   (0x17bc72b9746aeec95b2fd81172134f0986e922d113381f7a8dc0289b107edda3, (0, 0));
   (0x2a452211b67a4cca516ef2506774a28239f26fe707999b54ef525805d0dddda3, (0, 0));
   (0x436740fe8403e2a0135c1bc7a89efbd3aa0e6d6516c55289ee1aefa0249ee51b, (0, 0));
   (0x3fc14c3f8d481f89d52077be42f0ec72076aacb771eab3efd9f9ff38ed2e057b, (0, 0));
   (0x43e04d6498164e5727cb79a51f53d4c1bb340664b42d484a875562f58a49b7e0, (0, 0));
   (0x7180a2749aa3044db2fc384e204169a4f092c5c9e092f99ad191953de20884bb, (0, 0));
   (0x25d0cc6670d700959514667b004e95aa6f74655581b49e100dc02869a2468403, (0, 0));
   (0x65eda84bb84917fd0d10bdaab64b6a8628f3fc1b421f4e0b97c36c60e8aa863f, (0, 0));
   (0x582148100375f2e2023b3cd58ec0ef8a1d0ebc742bbfdfed5960e96b885912b8, (0, 0));
   (0x4ce289e651f7936b98f97a697bb0446040e71a871119838968c05a1a65d4580c, (0, 0));
   (0x1792fa4c64ad0d1370a5a812f69da9fdfb6b188ce097fdf6b62e4ac09508c7, (0, 0));
   (0x4dc236d49d01e6afbf3a4958dbda18e2d806cd05f0e703333d3e6e69dd99193c, (0, 0));
   (0x4a335857796e777a4c30a38f3bd6fa1274cdd9d2ac8e25587c72bfae345ef1a, (0, 0));
   (0x10a0f82cdd1f8db30a9b014362ea1e0a861411acef7752971538526e28fe92fc, (0, 0));
   (0x5e058e20dde0b1d3830a08d0eaab8e9b7532ba19d6b2a5210a91f25060c5421, (0, 0));
   (0x17d6db410b66514a3602ef44597405e0de5467f336543122b2c8dc4968885994, (0, 0));
   (0x5874ece5600843efe61362af1b577c785400c42aaafb219d1863525bb190442f, (0, 0));
   (0x34d39b0ce05dcc21b5bcbc47956fee397910dab49d86cac150cfc4a801fca267, (0, 0));
   (0x6a0a1ccd5494b0b383d275d510e78e0c4bdadc80301ff92c8a290ebe81a20f58, (0, 0));
   (0x6060a650b904e72f3269e7440fdbaa21a5ac51870ffe62b3042442b26cee6bd7, (0, 0));
   (0x5ff5481960598b5d47cf8c9e07ba25c1e25158e33dc1063103b9d3d96be09c9d, (0, 0));
   (0x5cb5a9483f61df09ccca2f4ae8a60bd4c7a0d9eb9ac014f7a1bb0a65e391e116, (0, 0));
   (0x5f44d19fa76e656246f805b4367715e8eca010d97605f69e5e8f173b0161399e, (0, 0));
   (0x4f222a5385503cc5a8bab8e31d58c01dee3f244a5fa4af634d68dcf1d4b6482d, (0, 0));
   (0x1e5eca17e59cfeb38dd0c0d980a806767dad47501a724f81660a817d1b4be8e6, (0, 0));
   (0x301a2d57ddd97a50a66e6d09fad6899d73f650b52768fa2fc4026c5de25339d, (0, 0));
   (0x5c08b127d5dac2aca01f403b1503004d66ec2dedd06a4bdd5b112974feeaf190, (0, 0));
   (0x73b808addb30b967c028edd324ed8f03328831dd8fd8caef7585245515e7ba48, (0, 0));
   (0x5f53f60fc02cc7231a43c3a62733faa0de0cc7acb20bb1d58c9cbb07ca5bbf11, (0, 0));
   (0x27b527a38c7279349e8554643370dc6e33bb72b1d77e27643ade831cc0d180c, (0, 0));
   (0x55a7cfbac2462f39e6dc98b515d8f99229f2e66921045ce6cd0afae9bfaa3106, (0, 0));
   (0x77f69807c26bad7a484157779bc530a936d9092338c7c42478af4740c757724, (0, 0));
   (0x6d08abe0a312e62dd53451935ee5cef176d1b95316305fba0de8cf37b7eaca3, (0, 0));
   (0x6022b76ab70f966a113aa95089a76bcef8a75fe638e2943719eeedecc69415dc, (0, 0));
   (0x39a3782d37c82ec99f2f6af90e6b40d5f3ff844bc7693cf7380dab86be47491c, (0, 0));
   (0x64c98699b218a4eb19fbd7f13645ae7f7640a02507048d278c774a2ea58f4e99, (0, 0));
   (0x1709b04b207ccdc06a3cc17575ec914b90fd89b2a9fa32e9a3fc874e56c09bf, (0, 0));
   (0x2e1ccab9d246e8886271ac5fd52a2070f5a0b4f1f2d39a0e3f99d798561146fd, (0, 0));
   (0x732abfdd9ff6fbf51f5db6416ce4dbbcb3d3279787b56de60b01928a2311b625, (0, 0));
   (0x58c01c9314975644536f82114dc186a23003f0c5ce9eadb273a84d2368886212, (0, 0));
   (0x100b67698894b3ab67ecd054d6910e8587750fbd3b5d6d85a29f297038eeaa92, (0, 0));
   (0x7219b45cc6b0af9e9ae328316857cdad3900ab62b36d9be088e09b10279f8680, (0, 0));
   (0x1cdebc5897d86a56751344bff0be5e7ffe92124224d6109f9a8d8bd8817905db, (0, 0));
   (0x4674db067d7e0882246fa98e53df0bfdc1f315ca3c2cab618c1df14370714dc0, (0, 0));
   (0x72882ba0e322d8fd8174e8431ab635a48528459bf01d7a84cf012a752d243f5c, (0, 0));
   (0x30a3a8f8423678d2470ec3e79a1d25eeb33cff509472d535654efb492bb6b883, (0, 0));
   (0x1f8e55bac6ef202fed2bc15c7a5ca7a8c630b9853363c956a8d8138c09fc661f, (0, 0));
   (0x18e7eec5a08df030da1bbea0fc77bcc94e4d6cc92f14636e5def3d6f5e2e6851, (0, 0));
   (0x16d8248d916e6e20cec2f01500d88594ea856a7fc3b147aa5663e16bf446c6c3, (0, 0));
   (0x321dd7e938d259614677650bf7ae11294989600d9a8c309d1afd057ea27a992, (0, 0));
   (0x1c6219b6c1898ace0e82a378d7c2dc3f9a1c0d453ff8ba57f4cee759bad45817, (0, 0));
   (0x3f1c72318cede3ef75045416b43394d940ee345f275264023fcae52b4a78aaf6, (0, 0));
   (0x7f07ce72fd192583ba6a68aed16176cdc7b000d124e3292d4f3231834fdb6e8a, (0, 0));
   (0x4848e4a7e9b34253eedc2e3e201114184c01b102e58e1e2fdefebacd3db45ba8, (0, 0));
   (0x72cfddd3ebd7f55b67989748ebefa7d96b0e0538e44dae8191ca84ed48cff72, (0, 0));
   (0x1458b44c96254d8606e489182e207f273be0f4b0a268e7f576e0aa90d6e5f81f, (0, 0));
   (0x6cba343d9fa525047ac3632981acc195d7d08f638bcdf1e8279d6b63ae88309e, (0, 0));
   (0x55a7936a7aecdc61a76ef28d5fc51372a42ae19579feed38f008507e4d0834ab, (0, 0));
   (0x428b3a7e5443c2d918ce5cd55fc7904a9295e7c1408e9b433ff7bfbd23180dfa, (0, 0));
   (0x78490b0087ee36d3c428ab0302f65b1cf2f48aa2461a2b7c129eac6e069e032b, (0, 0));
   (0x27b104c400736ff779fd5323ec30a992287b9a8b99b4d551815a730a59e99ab3, (0, 0));
   (0x2c214ec57050c388a50c7b537fa5dfc7d312a0f71c6b2e506537fb98c5a2e045, (0, 0));
   (0x28157259ea2a214f04491ff517c16b0d0efbd2a7add8154385ae1b50b065f7d8, (0, 0));
   (0x311b11b2361d5e8dc64c34af4aea5edc4f89268aee7103fb834ee51e4a14859f, (0, 0));
   (0x7472becc2beea539cf1a8f7eda66770ab7891395e3be95fbbdd3516eac31caec, (0, 0));
   (0x4c6145affbfabdf3c77040a7d21747e7829cebae851d0bf8e5d1dfd121b45c35, (0, 0));
   (0x549c2eda8746a20f8fd8a988e58534d264727b1156cec92e8a3bd06dc865071f, (0, 0));
   (0x25ebc9e6e7b9c420c45fac313581aca643d0365c166a34b730b85bb01035875b, (0, 0));
   (0x52f7c7d54b2e57c5b024d92b8b0f290364cdd833c8806831d5072e96dca6e130, (0, 0));
   (0x642732005807cd2eb4757ddf69df217c9a66c931f8aa8e110de80ea4cce282ec, (0, 0));
   (0x38ab01dff839a6d555981234b64ca59b1a13d2fd96118a0af924baa509fc0a11, (0, 0));
   (0x2c57197f1fb8a44869492868244a366121e0a1166edbae21721dde46b5624fa4, (0, 0));
   (0x1dfd12ca79520b910504cef323d48be27fe844fd0551df3917697893169f37af, (0, 0));
   (0xe50613439909188b26e2579093140c05ee7784a9efb4e747c08e0ccc6baa5f3, (0, 0));
   (0x52a0989f6a98642c23724353d8c2cd0cb12afa3001cda103245479c0d1c626c1, (0, 0));
   (0x43ff305fc1d4f9c430b7bc5349fc38c84212bc43d381b6151f3fe2faea8d429c, (0, 0));
   (0x1a17aeb27e7ffbf71f56f7fd362372c4fe749c3fae7ca85ee679c939a4d62b9, (0, 0));
   (0x1c39d66aa725f575f5ff494a6b8faaeea6bc78ddf9ac871b2aba7db22c9384e, (0, 0));
   (0x508f41c649a2413337695133c724d6758a644766af8235af258e854b4988757d, (0, 0));
   (0x37ec99690d2ac1c0c99a2743691a8434144d9d0d15bdda57606b4aa679444154, (0, 0));
   (0x2398377209cae53b8391d97fbb05f3ebcfa159eb1e39fa3b609f88936c5d9425, (0, 0));
   (0x3a3bb9f42c7223caa39de6978ab5097d5925fa7db21cdb49140a4bd69d488b0c, (0, 0));
   (0x1274d2b1e55d66251f54ebc4cf7e3ab9626b5ee196ab1bbf42deaa448b68fd4c, (0, 0));
   (0x4c485153a02a063b5024cef37f54f25c0fad7efe7cf730c92eff822fded61b47, (0, 0));
   (0x2d32fab4ee588e17000313282947ac77945831391371adf83ff6b1cd4830fa0, (0, 0));
   (0x5a4f03804d8302a1c9e59c092e6ab94a7e3406531ad04a307572d46a50b64d7f, (0, 0));
   (0x87fe09a450916a05989da1d97f192c8f1f7ebd2a4845b679376b96a041871a0, (0, 0));
   (0x7c552aced629eab84c224ec4be6634e2721875876547534425c959f623fdcce2, (0, 0));
   (0x14c18d34895ed6bcfd72c1ba3697e0d6e0decccf8473aaa266049323dd71f465, (0, 0));
   (0x7ca5e28c948976cfdc5d916a22fd7ab772b5938773c8056c909ed30827b53222, (0, 0));
   (0xcd20be4d35dd94bd493d37560e6dbe49793705a6b7bfe65bb50c202f61bee2d, (0, 0));
   (0x278bc182ca1566dbe387116f1c3b5ea160ad952ad3b166c710dfa784d8cff95c, (0, 0));
   (0x7e31098e8ca5db01909f49b98e4306f2e511fbe7db3a8a9866aa1f07ae680a49, (0, 0));
   (0x63d9cfacc33ec99cdfef6af151b7f147b3e22b20f97413f0215311027810b50e, (0, 0));
   (0x3948af7128401bd2b261172ec7ec74f03aba568b480049cfecef621f895eb2be, (0, 0));
   (0x56217f639ce326c3bf2493a0db9d0a043406d83375b3ddc47f837f95382c25f8, (0, 0));
   (0x304d4e1b80a92902e8f13c7757f0f2cf2f6d58a6a5f050ae53427939ab5a5e99, (0, 0));
   (0xf3dc50d4b4e8da9a580c274f21d2b66f54578eb8bd125ace8169724a36294e0, (0, 0));
   (0x279d0d0f45acc09777f1018911dd6749941818afaa12fa16fea9a4c58089797e, (0, 0));
   (0x77fab2ac6d89956cf78eb7ba5414ddd81677c02abb6239168b9ab2f87d5e824b, (0, 0));
   (0x6f386ee36c6382d627b887b2549b756fe16d455c6f337fd0726c2ae063ece9db, (0, 0));
   (0x3bee2312d84aadc15dcb740c87b871585dbe002fb0ddc6b88073466f34bbddfd, (0, 0));
   (0x63eb0a233dae68b1d87934730992d57caf350d6c5ddacd62770d36a5877dba0, (0, 0));
   (0x24f782827b3edf4a9cfdf9dee6ca3e4237be6065cf8f8b50a9b3190b25fa49bd, (0, 0));
   (0xca6c9b6b3bd06b30ee598e0761891cd6ed24308868d975aa555ad780ea5d17e, (0, 0));
   (0x2369c670e8330f9ff252454e812642bf17c88e65a4773742e1191cc1ed5f3f32, (0, 0));
   (0x4140defbc513c6d366abd36be564f9fb3d20fd8180b70318de3afd6594aa2444, (0, 0));
   (0x2f724132e898a70f28fb8e613cc8e99d220310ec726d96a2a92667a876d5813b, (0, 0));
   (0x726c2f9f6447f90bbb3f6ca76cc70e8f90026d16a39ac98ae88c63f104e89120, (0, 0));
   (0x5a28ff404e54ee5a2a86854feb2bd248efb50770de4951f7c52441469ad8b1ec, (0, 0));
   (0x407e504e8a067984765c4656240a25411f71d7f4687e14942b73d584ea170ada, (0, 0));
   (0x169c835f43ccbdfe7991b11cea7da4854b83cdd1e7b31b633f8b91e5ce6cd8f3, (0, 0));
   (0x53c6d9b67e046da3a00049cbc31796b58835c9c437817aa5e6ff496cb77d1723, (0, 0));
   (0x4fd01d7b43009af56d14ee8d48848b93e7a758c575d6cbd87d306ea81027a6fe, (0, 0));
   (0x20b6a38dd9ac009e45e549916a550179fe240431f41591a8f53dd4b951b35141, (0, 0));
   (0x6934e42359a8eeb335f7b40506378adf1b1248b4ff9daabdd4c337624d210815, (0, 0));
   (0x2247483bed10520963de9277d96781a49d29668f29dd91c6d766eea8542a8bd4, (0, 0));
   (0x1fab98547269c7b3cdc1edd69d7d9e7cc0ff08141dc625dd508668a8594a510a, (0, 0));
   (0x248e3ff30f3d2f94ac0dce74d72eb99328c92a7b8007528496d47f713eb894bf, (0, 0));
   (0x3c927cf29bfda15ca280ec997cede65c89d2ec0147d895272f290e783a271512, (1, 0x7f397bcd3b0e5ae8be84bc60bc0875cc5b52d1632a23e60cd0a2afccda1c55fa));
   (0x6be53d5c4df08790bf282d270eeb9387bc97b93fbf141eb6590264b6a282d735, (0, 0));
   (0x1ae790cb158d3f85c6e029e12e0ea85fc1b0a3c955997dafcb19943019b3adc8, (1, 0x3acd63f6d7a7a137bfb61dd91182b8a44ff293b1041e5b062cdf47accc19772b));
   (0x1fc80ef2c141b560c547af414fb92023abeebd530a206eb5d10f78102961195a, (0, 0));
   (0x1fea7a85e14335bbe5f6e48f01c2bdc4a8cc4288f24b167dc651827b78ebea2e, (1, 0x11b4ea29eaf63297ba532331df28c69eab8f67d6d58b205a9219573bca4a6e2a));
   (0x3046baf87dbb3a74aecd9934a1986ffd24a64aaa8196ec6e83cba951ca550dd1, (0, 0));
   (0x232d1606f96987a9962977d6d4d5273e810fb9b897e0632c7c906ef3a9c19e25, (0, 0));
   (0x28d00d509e80111961566655c80b239d98fd5f030509ab6b6a4b361808be249f, (-1, 0x6476a1d48fd214d29cc51867075466563fc32bf9217dd45e721be534e0e4c952));
   (0x288c71c5b2185a9d08a76e34cf75e7cbb639ebcb09089cd73178b1bbdc2b2b5, (0, 0));
   (0x201fc2de73305b689ed28a377f7ff3bab689dc94501b4fd02eef9a3ad7768f29, (0, 0));
   (0x7c0a12e2e188d905d869bac350181f460d32e93aeff1ef09c834c6c64b52a66a, (0, 0));
   (0x3dd2467a88ecb47f89828f316d862c2873f8f77c19a45a092c4d9f3028f55f40, (0, 0));
   (0x633f03e073db49f0cb2fb39e9f59d03ec1181a6f92db1a1c03d8b81307e6a7e4, (-1, 0x724a968d43dceb9967956d875deaca3250aeb5198b4743b3ae9702cf790b714b));
   (0x75e474d56474f72ad9abd9690597c8e3329d678a2a8b09718f13f41075e8bead, (0, 0));
   (0x6cf1b1696976ea86c208c4f42e94938a794b1cd11bbb7eac08e57def7fe7230f, (0, 0));
   (0x285c64de956a76656aca2b06d0ae0056e2239d24a889ad33ce8f38af4b174b3d, (0, 0));
   (0x5ec09a074dd931690fc9e841fb99773e9694de5b530b71a2dfbd79bc77aa6379, (0, 0));
   (0x2134084fd8a0300e3c33ecd055e91a228486a8dc2029941d3d4ee41d82cce53d, (-1, 0x601e24f99b357d32b2ab7868e59ea26512c1b4b4586388d630429775a9d0caa8));
   (0x74efb8a722c003c214ef7134b3134a7f1c034d42046f1b8292d574cc32e57335, (0, 0));
   (0xf03515840b3ef1f86b38cb267e30f565c79fef72b8d511a9666378ab6adc5f, (1, 0x62f68db62c58e15bdf7fa55c43f9cbeb8ab9a3a79dacdc5003d52f0623b42a77));
   (0x1e801a298fb0504a05a4bf6eb34dbbb1cc7c3f583137303a9863c7c294331cf5, (0, 0));
   (0x74e7e41ebc1e907da2dd303c76e9846db9182f9ae3897b31eb00694f5694e86c, (0, 0));
   (0x641688650a46a9746f74c5605c1d2c56a42389664c9ca5f3e7d77310db7090fd, (0, 0));
   (0x7199adf73c57e5c0dda4f67cd3adc29b852c3cc8ded49fc6e533da829f8d019d, (-1, 0x7c2d6251c719cbec900104d1e381b5eaa0f9fb6ff214a9899dc8ab61d691fbb7));
   (0x6f8a18ea73904e67cc557d919510565c7e34fa4b108902a3e6b319a4309803e2, (0, 0));
   (0x2d49c9014b2a54c4c8ea0bc3a6d34a71ad9d307e7f9142052b151596cc01b71f, (0, 0));
   (0x13ab3573624fe8149f1426cee4d7947e7c02e823f73764bf517a5328f75b716, (0, 0));
   (0x5415090d92ed25756ffccfe412ee23e9c84c1ed65902efef79df8eff25b78f27, (-1, 0x4a0fcb6cf0531667756c0a844ba3600e12cca4fcffcec3a6b581710e4caafddf));
   (0x1095b7d030e8397fdf0aa1e6b40a4a3af958d7c47cc45bf495c01b865f18b0d2, (0, 0));
   (0x57c8728890dd5968f66b2de0c25077b5c4f15191d699c745d4b66d802f745f4c, (1, 0x6ae31fb77ac544b478390fedd6175effa4dd50c1747c142c989771a2460f1c0d));
   (0x58e96ca9b00c43b60519448089331e82cf74280f07511fd14d955586cccf6696, (0, 0));
   (0x3f5ec86077f5e810cf66ceab4fc7edffd057624173c37c16ed6b86f69f279feb, (1, 0x1fe5f69da0d0c00f8f73485fbaf68fe834049c58f58c16f6a52d8808d55ea6c2));
   (0x26e675c12d0f5db2005a97327849bb38f382b32a3c68be71f52c94b411c93845, (0, 0));
   (0x2ed65b2aeafc7d6923da3782ce1a3a862c633964e77d7d3c7f61f0bd1f9853d, (0, 0));
   (0x4a75f1c47c3000bae2a4e7b2f7f09e4fdf347ed7406b6c690ff30430e550948c, (1, 0x506a4572df8fc0d0de11adb17a69f286b23e453c0d343775db8af3440d2522f2));
   (0x2bf5d207971dbd19e71e9de14b841ff201f617fb1ba8296bd68f9c5e2d1a0c03, (0, 0));
   (0x3e374a47d0fbe2a1bb1d1d7e3b9c7f882dd351e1bf319ba7ba11a73873b68137, (-1, 0x1ad83200a3caa5ed876197df02f282f6c7e4f93101c04c67447646771166f75f));
   (0x339d0ccf670191435cecf4c99a728eca5d584ea43971682427f9400d1a672c0f, (0, 0));
   (0x76346afb067aa6841f646fb53bf676c0cefd7a96c559f31db76974fdfc7c3a02, (0, 0));
   (0x5219ede6669e292fac92b6170647cc28c2d2c542090210b66def4c33d7a3cda8, (0, 0));
   (0x4a11e4b3cbeff02a5e8012c937de9756e2793575c33189d40881e34c9b875af, (0, 0));
   (0x1de073f66a31482be3a2d59ec764339e7765c02b481db847a5ca71db0ec1ae2, (-1, 0x677c997500554787fcbf06573e501c583a3e88fe5a5bea3ea8f7c49477739597));
   (0x4e56ea80692071131c33d3ae05d93f2aeca810edb3083db4c2b83037340e0e26, (0, 0));
   (0x5d697398ddc13466ebea48a99fc6ff7d0a3dbd1dff53635e13cfc18a105a69bd, (0, 0));
   (0x7ecd4eb8bb0056d837bfce9ad20d86af6f18d70b5e84faa68dedf1c338bfda2d, (0, 0));
   (0x2ec79f1f56d2f1ec4e775129d1b3db1b31d2b243bd7543af014c64fee37bd614, (-1, 0x282019bc4de84c45ae80f97e179aa2d0cc9d99707a9fd601e331ccc7b19de6c0));
   (0x3456c686939bb50b35a5c160cf176ac6b8ac9092ec40191923aacfa7d3d7de90, (0, 0));
   (0x2ba34e6854d116f2c98d55bdb5c2c483eeca32fc0b998d2f1d7e093a29367d32, (1, 0x19b11b538931d1397494e509ae4510d2e26b9db9f59c612e5340ef9e373f9591));
   (0x6be413e2d272e6b78b65e5118f7498f5afeabd8f2450c719afe2aa51a0fd7402, (0, 0));
   (0x8f3c754f9df201517e81ab9787d65fa58217a24725660d84f1879e003f4ea93, (0, 0));
   (0x3c4b4268998f7086c0693b5f45576f62edeb5a860d5fd2e3f872645bb231c551, (-1, 0x3056ae6cfd8e5c6c5c345f38a228ccf10a5d7ca0ce7b3bc0a0d4e32cb63387e2));
   (0x79b77931f6bbe097f1a854a54c7ae91aecb6e869a5d4e8352ff3a360eb73cbcd, (0, 0));
   (0xd6d158d937af8dd00a1219e8411cb07e2776176bff2f81a17c19a1d4f835172, (1, 0x269c816a1974aab1e350b1276a2d4b7bab2bb2abbb9f99df54daa60eb844510d));
   (0x84b7f6735bee2c0a9977b7f4835b50a74d86cd67355ab7229fd8d3d1cef8192, (0, 0));
   (0xf29db2964c15acee523951e9c299c9e5a10e4a5ee48e6ac4e044984674d883a, (0, 0));
   (0x9092a7bea7c3a41520cdf82636c8d94319aee9d759c47b226912b285b739c69, (-1, 0xa6be9222cb459a2dabfa0793131a6e9724b898da0e2fcfc48f6827475b45f58));
   (0x59530eecd2b750547cbc50d8d696f12876900fabe5b00b337bd9a67254fbaad1, (0, 0));
   (0x7287ca1d1c46cf4d770241ab203ae7a437e2f02630e1ea309b309218a33a6a6b, (-1, 0x3bf744b275b329e44c5f9b7094eca4497eef2507b60210aa5847a7377d30312f));
   (0x42c9a9da1eacb55316fff2c78051537afa5f4ed3ade8be270eefe180b20b55db, (0, 0));
   (0x4402b10f401fa5868a63f77696190079c2d4b8e323a63873583a394a0b6ef449, (-1, 0x5e6c84d128a83175cd55dd58970d363bcc8a11a8a4c32452c28c81236a33366b));
   (0x47d24b934a5f0d6a5c3620616d6ea679d8f200bdde5fd940b9857a13c7c1751d, (0, 0));
   (0x1a23ed386e31a0cbc3d70c36d75c17700e339ce61b3d60b11b46240242c2a6f1, (1, 0x3a5a0cdd595b564cabe3fccbdd4b03340cce6c7fd31a41cd77df8da603204010));
   (0x2aa82c9292fbc226c92741b5c5c0051290f649725cbeb6907588c052fa4b965c, (0, 0));
   (0x318a35e285bf65bab4346ca5de99cfac9393b74a47b1feaa2b91cf2291dffb2e, (-1, 0x7fba1b3eb2699520390b6e5eb277c014b3610ab417d3f250f38cfd2137135da3));
   (0x5f78f6de011aa557aa4cf6ae77f344ac33124d4a3686fca2c6806d54533ad9ff, (0, 0));
   (0x3c2f299996d0a03bd76b2aa0a07e84d211295744e647a0b2c2abe214e3c4689, (-1, 0x3643c3ac42526748848459af77c1c40ed3417a898413fa14858f56128c8d389));
   (0x4adbe3bffa3ea4de732c4147383bc8575c97a02040421f62f527b747d919dcc3, (0, 0));
   (0x1f0347c95319add3382f254c6c223502b37fcb87f0a5382fdecef374265c973, (0, 0));
   (0x5faf537d9f93ed793835184525fd467441d9019366d12b9a24f4055da64ebfcb, (0, 0));
   (0x72f4e5fd752e95e7c966edd404487aedb1379b397f1e9f48ec3b12e599ef1982, (0, 0));
   (0x5255153f211e2ae739558e7859f6bc6ae6ce132a6bdc82fd639af1af7427c51e, (0, 0));
   (0x79c53760a48ce51640fc4532c66bff023e26df6b3e8e2ee229142656e90fa194, (0, 0));
   (0x6eea918b1ac636764c6ddece372f22ea9596ccc66bfac43d33f57d663bd964e9, (1, 0x1f91c8a5f96ea88425b0864a61a3951116af619e42d02db45059bee91eb9ccd9));
   (0x2a5245a27f78c34651da94858ca7adcf0057629b619cb2bdb115aa1dbdbdb294, (0, 0));
   (0x4a81ea3a1120b7b0bc4bdcf938016e84b979f5fd05c42602f0570bda8b98f261, (0, 0));
   (0x2ec5e6f6f17c0c5bf1a3108c6ce1af8e04823ef9d3976aad76a8c209f4ca3a3d, (1, 0x695f2d6fdffeda16790d51284807cb575cf639bdfb144fc60b1c0b86c4a1662e));
   (0x18a52d6bc7d10f861a2c95fc86adc92c678ea32ebb4567fd54a0de0d52f8f5b4, (0, 0));
   (0x2937e1113ba8e2538f9a359b10fb4414b7cd33b55cbdbd70626766fb904d3616, (1, 0x3a6e84cb08a302672d07ae9f28b5c37f81c2f9d025872f8822b8185d960fc05a));
   (0xfbd986a179bda7ce4af277d181e384c44ff62ea83bee665ee411af715ab2c5b, (0, 0));
   (0x3b57c056affad6fc1503ccd8fb13b74f1e09010f8b8de99f94d60aebe19da487, (-1, 0x2374eb28baca6d13aab368a40a0448f4861a5dd2aa357361e70cf441fc96a9a7));
   (0x156f7fee7866fe97bce7ab177cd6209b748b4bca27515f6a869207024471edc0, (0, 0));
   (0x7921db9af9f902e3c54f9fb6948500148c67d59eb6d1ad45d00d8701e42c0b06, (0, 0));
   (0x588b5fb4273f426b3726f76cd1a70623e40c4be177a63f2024dce7a55d0f9218, (1, 0xa071c405e1d4932bf07b51ceca69030591d440150b2b2c89196cd8b5e4fed2));
   (0xa02dfe795e34265bda93e077094b2cabfa86ceb886d15adf30522a1fc4602b4, (0, 0));
   (0x3b6f1443cc03b03682415994a0c31ab62b5fa127a875983ff4ea766642b6518e, (-1, 0x607738b2b05d443c9b2fd407bd0263bf280a87e4bbe21e91210211d4c641ba28));
   (0x64806215338bf8befc62865b0595120902c3f9fa008f38af5c4864a585603fba, (0, 0));
   (0x7f16e93b4535de6ca3f6134d0611fa75cc1b1267bc1c980b56643472b02e1318, (0, 0));
   (0x6c44e0e9d0456c5f2d21590a8117e3fc7ef655968b8b2bc764c78602bea1302a, (1, 0x17f70191bb9f781645781090af3bafb0dffd8547f2115ee58cf0683a0badf638));
   (0x78efa2f5c652b2d9d82213cedefcd0b99050017ee4461de1e057df91b5bbc2c9, (0, 0));
   (0x4d321af27bf5b570f74982bf3950a7a8afe2f50f97fdd8802fa129eaf35ecce5, (-1, 0x4104c60e0c4d19bf5cbbd6ef4c1bf37d214b69ef2c0c19b07dac21ac5cbb773f));
   (0x7b31612de386139d0e11fa6786126e287c5a31e6536c5e8c0f970201a86e3ba, (0, 0));
   (0x2010faea43db925099d1f8ae27d8e8a43d38a25ad70d85a6ec2fdc5db387dcfc, (1, 0x4967d17225a1ea176b629e801129a8d9804b8edda08744395707be7b01ed3636));
   (0x6efb9859712fd77fa4fd0bd5f9587d164cca8fc25bff9b28e05a6efddd48bb9c, (0, 0));
   (0x240594839f6f2e280dcae9eba3186d23141b4cfe2501963ede261240408698d7, (1, 0x34846360b063b1a9213ee92b343a6d84719b5feeb0549ca51ae149fbd0e20634));
   (0x3029999e59ae0d24e9b590ecf563055217fc20890f218f0c9c4a66b251f86db9, (0, 0));
   (0x2b1ae481e9cbdc99a50fb490b7362daee54cacaa45013f3086ab6a6f95a03031, (-1, 0x5122c453b5d46584ed53606409017ec5143ff7c282cd09eb563b774dae8abd79));
   (0x14c2ea698299ba76f8b3367c14bd27bf141596e33e3fe6493ea6ee164955f738, (0, 0));
   (0x7bed0442ccf9592618b7ba180d684f99e42678f10e0150b630cb09724b89ec5f, (0, 0));
   (0xf582d5336be28afab7cf961bc2a7043e2bb44949ea4abb89f9b98e97cfef069, (-1, 0xedc53623632a05eb989137e5791fdfd972bf787113ad4b51057beee4e6da3de));
   (0x20f6501608f3ba193111c2a3edc4012c04d199e37ca814bd2a9d826fb90257e1, (0, 0));
   (0x3ed93a46e5e2d021154905b5c6d29cad0d731d9ff51f62c0c7d34865e53a342a, (1, 0x414eb1af2ea96091a420aa1d9a3ba08909cbd241cdb6adc42d5685422603859d));
   (0x74b84eee0e60b9417bf3708c200abc6915803db9ffaec941ea2e5a7bd5d887f0, (0, 0));
   (0x1ea25c8e58b7d46707bdc05d39964b43888bc47c7a2d56fcfa6f32f1b53e7a17, (0, 0));
   (0x45501f204fb524e0cef9baa391ceccf9bc71b536faaaf05b8d3acd9b687f69e, (0, 0));
   (0x684465161f600b5cb49781d504f54a873c097ca081805794904d1890fdcca341, (0, 0));
   (0x4bcfa19eb713c0a2f2d2f3e654f4ef395363c00fa3575f03f673406eee3811be, (-1, 0x9637569b69e2ee7c1d8753fc94e2a955861b1c8e8832491273c87faefde2f0c));
   (0x54681334adf6e2ba60c5423a9d2725e2b7fa1843e67b9c739fff314be0cc9f4d, (0, 0));
   (0x6b7054ca6372754ab8a0c5dd7751a51289077c690900696e071e4d0bba0c5374, (-1, 0x7b9f2d532988b62ab748f0c7448b1b8d3914d54e87ceb0f9d7764d9e7036028b));
   (0x482e3e56d519a9002d04d3b434dadb64358462b1226c16b60a2c1480f3c36c73, (0, 0));
   (0x521d07d13801a70cb4b4fc82620cb4445456052a4b337c04a5127a0e11552968, (0, 0));
   (0x5cf8c96e65f36097b0652ff4c4afe99ada8a6a933e6f917ef8c1894ce5277889, (-1, 0x2de257882fc490e78cda13d5a95ed5d8b0dce1971f07e16f7b6a0e986e89aa85));
   (0x310c89ea1bca975dcbf95c17ec2f7dba81b5f7a4a2406474cf8c4bd02422150, (0, 0));
   (0x64e139de1bbd602e66b14d400948bca8727d6275c6e7522f4e69555e9a8cd72e, (1, 0x47020d36c586ebb633af1a2133af68414272f06559abc57075f0e96794fd8415));
   (0x2ecbf8d51e81264d12758f8edcb9597c5533f71f8860beffd82aeef20035c254, (0, 0));
   (0x6ff68c1865f8bc6a04f49dbc389ecc97ba6c251e466c2c8a29e54a389a39b8de, (1, 0x64cc99239a1b43f5f34404d20e91c842eba691bb1bae84c607c5ec829bdfbeff));
   (0x6788a99e104f76fe2c2dbaa32b0050eac054b407ec4df6a181775b966100eb15, (0, 0));
   (0x7a093653e1623ba9710f44459fb3f76cbd72425e58e44353127c122061891800, (0, 0));
   (0x6ec2a277b5e4fcfd1032300cb0febd18e71c13774c6b82dd4e438eb0a687b06, (0, 0));
   (0x7ba8144124182e2778771e9107232cc39dce62782f9be631ce2ec2e76554cb56, (0, 0));
   (0x216956f945b886ba05ab7d9238c56fc1e31a52b060516d915f7ef3bb883a33a1, (0, 0));
   (0x34e0fa6aadbd4b7be9df743c5d392164fa74f0167160436d980007e67dc72919, (-1, 0x226e89ffaef6f58f6ac7676321ec15edf45100fcc50ea686a00e9548abb6d59));
   (0x39e6a95b3d118e52179bab562680d6cad4bdb69f1a958fa74444e77e23eba65d, (0, 0));
   (0x4036be03869271641dded5c4bc35cb80f9e718f2016a2d92a11ef7a287e26d21, (-1, 0x39299403f828d65d6c5b3f74ec92a36944e4d3a2ac8131e8f522f1d40e2e54c));
   (0x749feac956764152cadd10ee82db0e9c2bb1473e44158bc3c417dd6f3c6b9160, (0, 0));
   (0x4c107d04b0dde5b7746926a19dbf43f849b9165411f63d6ca97450f2edc2f1b4, (0, 0)) ].
(** Slopes for the multiple l' - 1 of a point of the twist *)
Definition chain_twist : list (Z * (Z * Z)) :=
 [ (0x2a1d032fb27a5dd4c1baaa271d64ad46343514db440c430ff26eb8be388f602d, (0, 0));
   (0x7ca12033a8e563249607eb47c3c0ceed6443eb91a6d7fa3108bf0a1264c20173, (0, 0));
   (0x2f8443aaee478487f9951ebd7a0dc56ae9ef2a0b497813e6e1d83c94aa09a6bf, (0, 0));
   (0x50705a4f63a9bf03a61749e287512e3a396a470df07878a89edbdfcd074fe5a0, (0, 0));
   (0x205e9bc29795fea5af5720bb6664a61193c25dc198db6aad90ddc88715245caa, (0, 0));
   (0x797d837fd36cd90836240b1d837635435d217664cbcd0aa52bc14f7ca6b0d4e8, (0, 0));
   (0x5b0c4d2ac8a893d8fe5fc9b802c94593fe481261b844bdacd0cbd9a86377a3ac, (0, 0));
   (0x2a20fba55c14edce1bcd50a90a15a116a45458f61c30e962f0a772538590cde7, (0, 0));
   (0x3279b42a78c207d542b815e66f9aac88084adeca24320000f0b97c7f8bafab11, (0, 0));
   (0x16b709dd0bd9fb2f4e7e2a7c084d9f61812228b4f9d68b6a261bf40c703913af, (0, 0));
   (0x1e34e7591c62460aaaf914eae82b4727f3d8e40216253c37abeea631477eebc7, (0, 0));
   (0x132c78ccc8b1098d5bf24505accfa48c8b1ca71f74b35792bb33ce52644651dc, (0, 0));
   (0x6e97488e80c848b45783d9a754bc8c929967a7147f7543cee16a1165f42c8de8, (0, 0));
   (0x45354ad105bbdc6d2364ac701aee5ef38de7f7e3c6982c6217a621e44fe4ad66, (0, 0));
   (0x4c1d7bf11f32170b275e4a134562f8bfadd0db6d8447eba4c5b6cdae62139a4a, (0, 0));
   (0x2614204021074692f4ba115f879b9efff45137ece5091cfc79fe7693bcf106f6, (0, 0));
   (0x7c68b174ea57fbd6c9e76325ba25f1dee0af3c5ab8c5b6c426a7032fa5c4df80, (0, 0));
   (0x156cc7c2a8843e92d4e726dc3765e5f2db71c318de840f5c2241dc6fc67df994, (0, 0));
   (0x12495b4494b0341b2c9332d58cf83809af7215e5fe23e46ee26fe3e2e89abbfa, (0, 0));
   (0x6a4ebd158940ecc7454048a88c7a947e58a867440b1265439d95797588a325fd, (0, 0));
   (0x51259264a3f2781b0947f78b0c79c604db000b814c5a0c750e07287541ba43e9, (0, 0));
   (0x5269131f313957a185b93c838682eaad7edccb382703cb9588ba1f7d5300835f, (0, 0));
   (0x2e3039c87799855cdec0db2ca64eda3c126ec71afd2741431cdda7328aeb07c7, (0, 0));
   (0xbafbb0b57341ca0866ae3d603962257088647b38b4a2e8a16d3b855a3ca6e65, (0, 0));
   (0x4c01f4abd1ea98c48bf049148ba014bed401b713e8d1f71aca373c020c897722, (0, 0));
   (0x535df66995d31b9479d34296936129479484398347f95447ad4d492ea58d2a2a, (0, 0));
   (0x779d182aaca6194eb651139f59a4e38d4a3bd7e753473d87d13f7d2a037f416d, (0, 0));
   (0x37b0413026224b3da0ef56cd3c9c712b2972f18653c26c4b7a81ac2403ed7be3, (0, 0));
   (0x55719cfd6e752a458cb283155a80ae2436b503963c7662cbee5b53bd3959b3d8, (0, 0));
   (0x2b2f88a82c1d9e3be80301f4786086f37de9b6d8aefda44b738afcb9bf9ccf68, (0, 0));
   (0x4836b78904c75b8e646b496fdd3ec22704fea5e293d6bc914f6622ed88342bb, (0, 0));
   (0x4a07b0968deb6a92d43db452ed361484e429e5bee5edff3e7725303a78b5e1a, (0, 0));
   (0x423e173864d8de793fa329d60e7f72717638ad9bf4e5514d8b6cb9d9c81b82b8, (0, 0));
   (0x765a53577cda38f8019d9a65b4e6bf5685b4d0a3a9464250e0197388696e22d6, (0, 0));
   (0x2d23f16d2e08ec84b8248eb6abd7babbd2d7793b24a11376b0cc300d77a027ab, (0, 0));
   (0x3a94ba93e2e6044342c86fc2c610782b30e5bc1a6adc347f178978504cf364d0, (0, 0));
   (0x43459325c555d776f771495b79d1d91a4622272d88997b743d2e531095662b4e, (0, 0));
   (0x10e254c98b95314ca0ea7244f8022597ee4039d9f727e125b0476ad01c62f817, (0, 0));
   (0x6fbe799ebe2d4884024c2bdf7bccd2bdecf7446718d562d830301ad34e73a74d, (0, 0));
   (0x4a8055a385c2751965e1382b2e148499101f38f08b2f81b7d43237d4ebdf6aa4, (0, 0));
   (0x3d51ca9e4d185f5082bd2b3546250ef5c1187839ce2f1a172604be7ccbdb7fb4, (0, 0));
   (0x74a1a2d8fd6a7a4fd5281183c3baebfe5a9374bde0a1a7847fe8dfcc86075a0b, (0, 0));
   (0x316e0cadf6525bdca6f5cc3af447f61f9000ffb96c6cf7b9c646aad9969efc34, (0, 0));
   (0x1e6bbe293fda7c0f0d7d9324ebaba28e19a6fd95a9ef06ed338d44ed0a336815, (0, 0));
   (0x1cf1375383db0005b95450e1d7ce7711b2079309d8241b040b1ed08f147b6f8e, (0, 0));
   (0x4742bf3112b2968112221b633791e4c5af3605d90cf98a6cc9d482fa6402e511, (0, 0));
   (0x2152d074c7e78fef8ecdc10c48f62798afe11908f61251f80ac068f0a25b8595, (0, 0));
   (0x40e83095210bcb76d38adcb58d88884d5d886c3c6ab235f835ffb2e4518c4aa4, (0, 0));
   (0x4cfd08de2ca85129344c7a6f6c33af48163d7cba4165ac57335a85c0a377699, (0, 0));
   (0x5aec5cbb6b44aab7b159e0af6c3be64f6084aba3207a2baec8bbc92fa838557b, (0, 0));
   (0x25e48ba4e7cfdc5a4bd4ac8f47a1f54186332b57a358209435184c39df76951c, (0, 0));
   (0x640d43e272704c30177eb84e79faa98e1b742da61d7930168f5634c5fbaee69a, (0, 0));
   (0x59b3dd276d205328570e0d341c1549471e98b9dd14964c68d8f130e6edb8e9ac, (0, 0));
   (0x3d1f57fb776ae2f1370d78ab54520ca380941ac1055b3b0f6d50037a1a7c246f, (0, 0));
   (0x55102da29c277d6aa3c878e10f5927b27811218e28c302041214ff422a0303e, (0, 0));
   (0x4a0e6abaf34eea10b501e2a6e2ae10a251f11e968852150f7e7c2a916dff9d33, (0, 0));
   (0x5359ab63a844116fe9307842d3716f3c3e1a7ce37cb21d9deb5585782b4cc091, (0, 0));
   (0x307d287e44d9c7970bdeb04ff379b8b1765a6b727e2e3a0f89579f2836467976, (0, 0));
   (0x170022c73ca4ec19f6287dd4b3c5f102f1c8269661cf88caf5f5d74f510dbc3a, (0, 0));
   (0x709e02dae939e3e5554ad33801f31206b7ce575081e22732ed674d188b6b3683, (0, 0));
   (0x2276dd94b2183de2cf0a081e6d2d74db454c30cde43aa9e46ac57a0dcd2182a0, (0, 0));
   (0xdf2602398be68bc0b9267701557b6c1a5964af381cd06c877bbc6ed7603bc8e, (0, 0));
   (0x2ccf2e606b57a4feb4f9754b30ee27aa4d1deb4fda1c3115e158038583c8f230, (0, 0));
   (0x5b46db2c1f23676d8cac6c42e007289dfb3eb3468ce98b384b83f525929f77f3, (0, 0));
   (0x25de969f981a98ad2b56e5a0d80e41134a4d3a68ccd3cbcbd5ef3836d67d0113, (0, 0));
   (0x32c16479997d11b4ff19f02531fdb9e622baa32b94f7353811afa2a3182984ad, (0, 0));
   (0x21ddecc14b7079008fcf6fffbae77c6a71a4f2109b515d49400b70f8fd1f2e0a, (0, 0));
   (0x1888e2d670b7a1d3c967a678806670277a7906993b6ba227d0d809e7bb3d17b9, (0, 0));
   (0x2d2759570802f290f2c98ef0afc662eea610d97f2bd05911d8754a7f3b9beace, (0, 0));
   (0x37df3f2bc633a7c5875208d3ebfe50e797174d8e36dfe18335ca47d5b2c12aad, (0, 0));
   (0x350d796c5591fab8ef8f922dce0a287ec577683f8817026efd7085a36b4d5d53, (0, 0));
   (0x425a2b73725d8b395603a6bc69b607aa515e5c8c2f864b1a135ade524214c51a, (0, 0));
   (0x6fece8e194600c4439fe9fc259b2bafbd7597c4fa691efe559773aca423f7144, (0, 0));
   (0x3ea8e26887007a7f5d459e6ce0a853e9b6b4975e083331ea51aacbaa7364bae5, (0, 0));
   (0x68211e6400d8878b4c4190a8443dcda9f3eacc39ab9b244c1d82330dc096a880, (0, 0));
   (0x3b3e2ba019fe01ebcee194086d15432889ce59ea6c5f86520e10655b6387b2df, (0, 0));
   (0x4fbb5ccc512f337a17f770d490449e33f2115968ab7d21666140653491ef22a9, (0, 0));
   (0x39d990cc32721c080078d8dcb783424f59da4e096ce4b53e8feab7ad44a5c61c, (0, 0));
   (0x6c5cc488128a71220e5b23c82ddfde94474a1badb7777543a7861605f90e6c5d, (0, 0));
   (0x53ea113d6712badce76012bd9fceb0b641bf2a1965635e597b4e5e6887229a47, (0, 0));
   (0x695d83c3e6e89af4d31feee45399013ba8ab260f0e5e514c4cd77dd25b7a3397, (0, 0));
   (0x3414ff25e6896ce3ddff8273884bfe0bf067907f5534902763c88b188210b67c, (0, 0));
   (0x20c86b2cda88abe07fe129e756e421770aa497302ab96f96492cedd021f218bf, (0, 0));
   (0x13424ddfcb559ad58e44810d9c7a10c85c08c71de4ff6e3da4ffcb656c0aa7ed, (0, 0));
   (0x62893bc552d7a79fb5e9d72de4ddfe939e8602138bc4ed2eaab02fd5140a9bc2, (0, 0));
   (0x3adcbea8eea737a5269c41d84dbe0c183f16f7ae37d1542fdd484383710ea8b9, (0, 0));
   (0x30d6fc88f9f3b51e6a51c954d2138686c89779055a5bf22a9894c51b434a032, (0, 0));
   (0x4112ce2de3132e81703832041f829a0cefa9a317f3c41bd24342be9cf9d4f4ad, (0, 0));
   (0x2392e1431a7ebd1187bc36fb68dcfc3021debfbd586d7cd6ca352b74e54f91a0, (0, 0));
   (0x755b37e63d42ec6a5389619fbc0efb01b27a8b98a0ccd0190ab6776cf000712c, (0, 0));
   (0xe168736c17d319046bfbf3152beed1aca0e9f365fc5f78f11aa7a7718202f54, (0, 0));
   (0x1bf88dc3d1b1f8dbedc455100b9c6fa9998ef6991c33954b230ad7d826155004, (0, 0));
   (0x54aeab015d4d1dd12f64895441f9ccc6fea1f68a412bc36a28f29eeb0ecafd79, (0, 0));
   (0x5f91367930191b825369a946ccadd0dbe6e7b6b040e0dee806857634adb2aeb4, (0, 0));
   (0x125675028b0680faad41ca43f3968c2fa0faa032ae408166c70e1478ed3cebdc, (0, 0));
   (0x24959d7f010fcb015bcdc26287c399791324dd6178a70dea206204e76fd6a235, (0, 0));
   (0x2208908983f22e7e8aa59ab97aaa47303e9c3368572081112398c2ac96f1bed, (0, 0));
   (0x28beee11021684b9da9ab0a904d6e9bf2f8adced75dbb3dc9d694de115228d09, (0, 0));
   (0x583873b067078dd96196472c5bda12e6ff0444d7c465308210b9209b47e51c6, (0, 0));
   (0x2aab0492c81b01dbf0fa282fdf476b01960c4a99708239f0c197d823a709b9fa, (0, 0));
   (0x646b3e248e504f9a4c3b5eac332f2ad3256ab618d87f633bbc041c87cecfe043, (0, 0));
   (0x65b9c14fe943b3a7a5faf4c5fd4dc7ba081f52c0167b61f29ab8e456bcb3becc, (0, 0));
   (0x6b6ea62ced9f63be9299de8f806dd1137978ab75a2e62043327b3a408ea70223, (0, 0));
   (0x4c6ffb4e9fee23da9b0f670fe49bf2c35634c4651fb10a78fde354e017bdbe77, (0, 0));
   (0x7da357c8635e654555c2897f7f65ec9c69f32976e307d280d634746c5031979c, (0, 0));
   (0x6260f63823cb740044bf0a40a85f71140409e83812b67c79109729218cbffa0f, (0, 0));
   (0x190769d4a15845861bb43b4482eb3ed8b1cfadc713ca7552c206327fff1d52b, (0, 0));
   (0x53cddef362254e198cc1e284d3285b095d5c280ff33104acc639ebe5c859fc1b, (0, 0));
   (0x2021e0ab58ef19e0b76ce27260d702e8d94a41aa1a01f1f27e0168405d647149, (0, 0));
   (0x4640f4d41289e39a4b39a9095cf5b6d1f2218b0127831f24b84aaa945a4977a7, (0, 0));
   (0x2a807fe49dce907eb4b5903bcbba69b2d578344ae07db1525bb361f6f2820e33, (0, 0));
   (0x703a1cd40ec542a702695cd2eaaf2cc4f1f4f9272804c3930f88f44b1074b670, (0, 0));
   (0x4c40fdc0d66dcfda5d17da6895f0ac29f7cf830ab945f37010f8b568b93d726, (0, 0));
   (0x730b4d41e12b36a0437002b100e0e19a25eb63047c9c022498a026a079b8f5da, (0, 0));
   (0x68b6e4e5ad472c4c18be45bcd661d9de5617690fc6ebd4ae31fea7ff861e1987, (0, 0));
   (0x13ae28a12ea8f0791d185ed752a361715f5497e20a64b52021f799e4e618e42e, (0, 0));
   (0x2721f984e37fb02f2ad86a51e115e03176abf3199a00957c1731aa5a8081fbba, (0, 0));
   (0x4cbd10d83a66bc3fb5b3eb38e44d017cdf94bde50930067cd2cd3a5087ed8282, (0, 0));
   (0x427e24910a2f4fb44ac0454671f38f9ffde8234ef8266e38ccebb245ea76bb38, (0, 0));
   (0x5e9d9e4ec1738dfe67831fe405fa4946ea9f179bc0c7ca0da37fa09504906a2e, (0, 0));
   (0x57c773e13dc657ad60e159a3bbdb19b9c4fbf10b7555daa22783e908f57ab027, (0, 0));
   (0x4eb60f67cbe291e843d8c998ed06a03fc3619a06055be0adc1ed83317386e174, (0, 0));
   (0x48adc358a5ceeb7300f4ccf36c495c4b9d34981504798385afbfe82053efc87b, (0, 0));
   (0x63e4bdb124f2afc688ca2a6de955e2d9d7ded41249a5809e610db27ba81b0b5e, (0, 0));
   (0xab1108ab4477134a6a08fba695703b8949b70ed9338f0e23d87526cf291a977, (0, 0));
   (0x43f957376a6453c28029c755b4c97d4f7d3a29d91218ba067067b3640d97249b, (0, 0));
   (0x19334ca5293d282eebfe1d3649cd4b614b0771a875e41b686ce9ffb934db6686, (0, 0));
   (0x4bf537d69ff8112ea45470af20c5817bae257ffe63fed078a3a3f7f9f370621f, (-1, 0x4467368f5792ee81ae3f8caa042f5a410c74bec12cce4dee3091b45ad8a05693));
   (0x7b5e4c7bf8d82c1ee6fd8df664dc9310ea2286622ab6308849a8ea670d9cefbc, (0, 0));
   (0x57c567cc403036a4ed4af55311c1ac992ab9fbfa082afeb74655ab518636b3d5, (-1, 0x686f4e4801f990950ba852baaf0f19686cca34b05ae09f9243e5727b96169bc2));
   (0x38c3d578f0527c50ef66d09f2ea16ab1b939ae4bb04d2d02351a83e1260348c2, (0, 0));
   (0xce5ebb74ad82f059ee6d2a8e5deda7afe5657d8ac88f3343ada857bf841a810, (-1, 0x17a06e7f62e5d3e1f9ec10e05ae4084143974afb25a13cec623eb551872865da));
   (0x5f3517d9b2c78d2f7abe8f3538d2b16a2f5ca2f74b0de07c7bdda6af0909a57d, (0, 0));
   (0x49cd199e5cb3d4fdc568ec708ba4cf0a561971145b8099f246440abca80a5a9, (0, 0));
   (0x62bfd7a14c858e86b2ee0f9cb3e7f80198fd48109e0c8b62c883ae9683a927a0, (1, 0x21a96897a0ee77391119a55d688b0253cbb24ce05e565dbe90d8340d9d398b66));
   (0xa7eb07717df1a7ce25cd971f80ffa0138234b01636d6f67dc8294082a06a82, (0, 0));
   (0x1cbc8aa320d200ef819ada923f46c17973db61f7499c1ba69e89842cae62f0b0, (0, 0));
   (0x5f1a6539bab9faa5c5477dd7caabf22b86b2841c168a518724f6a33c5dea4717, (0, 0));
   (0x63dfad8ed49ca08c792cbc02ef359990251bfca3f3d418d50b9896b2e4d86c81, (0, 0));
   (0x2439162e23fc587358eae4b4533e09d1476881396aa94fe4768c5fae8834981c, (1, 0x1fa5fa5d9ed469e0984f4c502420906ffdd478115afb1974d529f476eeb640e4));
   (0x22cac0f698aa68b3477adc7c2a214c46492cf225149d0a0aef97f10745b92009, (0, 0));
   (0x7db7b0bccbfd16ac93633db5e731e84702779419e692bdbc9438409600c08319, (0, 0));
   (0x213da4cdf1c8d32b2e4a93beebf3e08c3ab67ad003bff426a40935bb94234cbd, (0, 0));
   (0x1d100b62642a868418453bcced2856542b06ab18e6fe8fb17e3ea6c7da64ba99, (0, 0));
   (0x3ce356642280043634defd5dcfa6fbebc7701b4a8c13022da7cee0dc5a48a0b0, (1, 0x1f73eb9ea0ff83523c433e3fe6bdfdfde5ee7e237af7ab2213135c1ef4ae1559));
   (0x1feffcefbd3026375d971b57d6efbe90b26624b8e1acb1f045464d7fa538bae8, (0, 0));
   (0x3b0a8937b623eb59d099a54e5dd9bb192c35d08b24331ab2a4b301587ce39ad3, (-1, 0x57b3e42645e17e975b7a5413c77f766d47fea2162c54175778dacdaf0922084f));
   (0x43853ab0cf59683b534696b999c58f5c6cd647a18a62fd3bc64b52c4d48c3265, (0, 0));
   (0x7e216a99de8050a316cc97de1126854b0ad78e642fb9a4c2e2cad71794bd0074, (0, 0));
   (0x5084dde3612382125b4b20c5cc48dd7e0085c511b8fe9f0d0f6e899962525242, (0, 0));
   (0xf6e3aac899ec0e6f7c760d6a91035c161d7b7ba066090944a26948e0c56c689, (1, 0x4395f8ce6b75eb542b714f0090aca8bd160dfae97a6f3a759a98e78a3ff9bac8));
   (0x59838164a3be75847d95844cdedc1723b33b16e89ec889dddcb2ea3a9d902d4b, (0, 0));
   (0x6a7860578465782fb0c7ac731dc939814437ef48a568961ce9d437758ee1fcf5, (0, 0));
   (0x7031d6e24c4d66d65993edb6ee341a6220db9d757e3c5ca9848ead70a6f46ad5, (0, 0));
   (0x20f226efd77c671191f519377f46deb7bbaf6f495ddeaee93c777708936665d1, (1, 0x4db6487d2d85ec4ea146b9f4394dc866a5e123a7e0e421c1fa1b840fe9dc61b2));
   (0x4fc60cfcd76f0031b207888ad44ea0af19fb713beab2c9982bae59fe506e168f, (0, 0));
   (0x10cac824f816265a6f40f78100763df07ed9ac71ac1314c40ea7340b692fdd95, (-1, 0x4b36606ca0fc927f8cd9bac886ac6c5d3795037a7e7fd67e7bb40c8e439e5348));
   (0x7617706bef18ce3b489fa16d21f609419cd3b062bcd24462b7b0d30ed777d102, (0, 0));
   (0xb5db0833d0b4b62b1dbcb6be65e9fafee0d9a86a73114216f16c4ae57d4f45c, (-1, 0x10f9cac5bcdf437ac385e31a9b117ec7a209c60ef75511c4de8c841845fe2d06));
   (0x4b2e275f92013488987480e45ca0aed1e11ec4ad23c3209b4f3bb2d5779c2e74, (0, 0));
   (0x4189dccb4ceeb240572dd3ab007c3c73f4d20c926f8d6e634e3f996c4e9121fc, (0, 0));
   (0xbe184182a36004c7f09851a1cdf8740e75ebaa8a753f506ee4a65616bb13def, (-1, 0x30b8015f189947c7f285c388c0a1fec429bb5c1ba5b323dae9ced106c2d99633));
   (0x1e1deb4a757177d02456e182f1fe6d8775f84d75b93e106c0eea3d5a0374eab4, (0, 0));
   (0x72c94a5e0361259cdb444cc2db395bda3bc757bb7f5e536114bcbbd0bb1e3fa0, (1, 0x120ad218ae6dbd307c62344725ab99bedac745fe9577c7608fb260b6182dd91c));
   (0x23ca1de4046195de7e6871744ae70ad8eb5fb724250b3d475eb4a4b4e26e44b4, (0, 0));
   (0x477ad27a785f70f7906b31c32a0cf0f9d9d91f1999ecf09800644c1031d161ab, (0, 0));
   (0x50f3667ee8e50697a1ad01d465eddf758dc7ba2888e68703fc67a4add9f38a8e, (0, 0));
   (0x5277855231fb7ba6874e4f392c61919e680ecbcb64941ddc54c00e9ec24199f1, (0, 0));
   (0x7777bce5ceb349e555693fb0c214ca5b0dbfa6671bc76fde76eb56d698e1561a, (1, 0xc4f3fc6d7bfdc9496874a9f488db3757a26fa1485344c4203ad8e1337dead55));
   (0x7d4fb7ff6b0f8e5e22f8283df198bdc2ca4f8ccf22abda2ba01da56c175ba945, (0, 0));
   (0x326b913c99aa89b8eac4733009067717174543454c88837eaa069c3df80f609b, (0, 0));
   (0x62f589d17fc986ac1df0b6a8e7df3870a21fd6813882072a468641d3abf6833b, (0, 0));
   (0x705235fae3d1e01864ceb15dd19f8e8bb3aa09c4f33d21a4720cae4477e689cb, (1, 0x1b2a0ab2586f635f5bdc0ecb97f6a43d69f7f24427fc5464c64ef50f11d8f792));
   (0x22b037a86f334264f2afe342c49b5ebf4f6883f788e0a2f9027c7f8f74e756d3, (0, 0));
   (0x1833cb0856345ca824211cc851073f297386ba9d67ff33f2475091b87fcf5781, (-1, 0x2059a36fb75885849e19e7670f60c2b3ee503afb0b2ac2bf534bbec038e2757b));
   (0x7e1c782b9f74385df5c8ee0ec15fc5285f33c49c4663038e1368f11f75d7955, (0, 0));
   (0x2a08e52a3112155f07c530c2e0a558dda0772a6e721e9f8bf485e3e60ef7352, (0, 0));
   (0x7b46ece2442be4e6a11a738b47ccf47e7ddbdc5e77984d087482422709366940, (1, 0x2b09a7c9c4fe2802ea40c2e75018c258287914a535328b19191bdf80e73056c6));
   (0xcc91bba14a2f91922cd36d657d2d73f77ef4c03e758f983a057cac1be169ba2, (0, 0));
   (0x4ba257af42f10c6c16f227f0c36cbc31cb01e4abd8e0cf6762b88cbd91f551a0, (-1, 0x11374b9d53c4c18ae874de6bc623f5d38fe43c25649584838771aaeb49c18374));
   (0x8c33934f821f9faed2781935965151f5cae69c46997811f10abba603a054f5d, (0, 0));
   (0x290259634f0a0fa6b6fdf7ce7c7b8e5989189f8d7f4a90937d80216de983317d, (0, 0));
   (0x16f44b714a3b6ac8ef54863bcc1c0269f6b6a9b5317ca5f696f877d81bc92781, (1, 0x170bcebab4d642e85554b637277e7fb1ed5a3bd440a72475504c20d91c170545));
   (0x4c940603814a798c14f9e8f3162f30df0de63738a02541c26068efb44e7c53ee, (0, 0));
   (0x2e3c0b61b97edc6aa95e92d018a0c67b0517221f62e0cf2e06cb2934cc0ba84c, (1, 0x33b2e6323ba68e83dc19ce660da2ca86cb4ce045c7c5d992fe47a11d7e142f5c));
   (0x556b4283fe0e6ca597008232174339ee4924bc6287642e33e3e0cc7fb37d8b52, (0, 0));
   (0x64eae1332523833a055d559eafd8cd6ce211708456814d75026559b7bd602fc8, (1, 0xb5a8c42f0c4f3d3328c1df6b7334e2a5427a1fad42aeac5194eabaf1baafeb8));
   (0x252627b7cf102652b55eaca6eb25e01afd62550ad8961b463f43d964074475f7, (0, 0));
   (0x100edc89819eccb13fa554910e2f2916fded3f455b288ebf500d68de4c64af96, (-1, 0x77fe9c0b2a063d419d61f71e87b0ff57524aec73b5e2167e97f3e274d944c3d3));
   (0x1d35d7edc32f4fc0a7517c03de4d40024ada059d5aa95885b022900e4612dd95, (0, 0));
   (0x3032d93a1a093c207e485d8c801f868b475c5680d6b161b3170c62cdc8e5ebd6, (1, 0x682962272e6a52157a82eda79f95e3dc9657140e836815446b99ea6b0e067d10));
   (0x56d5f3b54de7a52d1177bec7932f5688eab3f942c6cef4f6596343f4ac41fa21, (0, 0));
   (0x7b6627a7687c1c0a07db7f6194e72f2dd4b6d2b5cf4e809713a03e0d7b305f2f, (1, 0x7b777b0f4df7396f537ddcc16c78ae94de03d4af301ed8012a3bc09b2ea49b44));
   (0x3df581a6f070cd58b4882e0137e404919f5709128506e3caaab31a067d942232, (0, 0));
   (0x7501394a303730f336a025e224af2c9e99764907e0cadb381137fbbf758850fd, (0, 0));
   (0x2e7895b173e62318cd07af53c26f8e205c8832bcec92d4fe2aa7db04ead581a1, (0, 0));
   (0x172a2c8db11b50dff4f72d2e0880b391cf84814a39915005ccd750621539e1e7, (0, 0));
   (0x1d20a1762f77995d4a704594ef3a70ef3863ca27897d7e56086f3e4960e27703, (0, 0));
   (0x386e6140d40211c14ce654b8992df17ca48183241ccfb1e95cd2d3b51860a9e5, (0, 0));
   (0x29ad8a3eacdb537c32e7c8ac765d2430edd2f1b6115d8cab9ec33cc4938a8b1f, (-1, 0x67bc7a6257e4eddcbae36ebddc4c1bca8469fb4e6f1e9c3bae7656126fed755));
   (0x31d73b949922ca2708405e03fd5b9ef47f8cb78a3dc96a18acc5903a098b53f4, (0, 0));
   (0x550a3929729cdeaffac5d95e1a0a32533ca33994dc7cc8347f3001931bef1016, (0, 0));
   (0x45ccb7ce9ce8a1bcb1545b45080d3247dff2db752d599621c1322bb17c385c3f, (-1, 0x427ba346328b3cba6b70e533c510250084abb639f5c96d77f5413adac0aa5b38));
   (0x10386472225ee04f89ff121172133fdb3c79e217be389f4c2a4dcba105d0246c, (0, 0));
   (0xe4caeda498e1114a3bd1f6a54db0a345af7ca140fe466bea98b4e8700832b95, (-1, 0x2c946204c4430cbe51fcfc9df0ad3bf35c129fdda56330993a9679439a45551c));
   (0xddf3a874ce5e68cea98b786ecd14929c705fc00a71273537304ed12bb924197, (0, 0));
   (0x73c90d60097ddc579a55452e9343fe446920a40b3d659099478a3aeabc0b7c1b, (1, 0x6e9a572c8da32a8e1ae23f114199f3c9373142d4eeb124ccd00f2a5d99ee9602));
   (0x1094d535f02752f4da89aa2687ce9e9c5f2f82738abfa90d5b9ce2f32140e198, (0, 0));
   (0x1cb6c9b5ec54edcb8d4bf883a66c695c43215a0d5ab6f7922827f14b4657821c, (0, 0));
   (0x51d19c176db77836643e441ddf384d689640a72817436f6b83cf1fa749f6dd1e, (-1, 0x6b0cba7f98368e298bbf4f853583a3d2be910f2415e3ab6d2cbabb10ecdab447));
   (0x44072a943e081673fd7d12da26b91ab84e41b35254515bf0670d818cd0bd9075, (0, 0));
   (0x6c81d1a5d61fb50ab2573001abc10bfddccb013954c547471eb411f321c99307, (1, 0x75ac9766220fd1d1068fe626b5b3da0b715e13aba008ae9b0d7e8f05e33fff30));
   (0x73bc421e676902d20d14e1fd40464abb27254df279e225f593e864eaf1f70a20, (0, 0));
   (0x1f0201c39402efa76a6b0158121c06eef948672879c90da9ab154af8b15db4df, (0, 0));
   (0x27d3fe02d70bbda25073dc907c2474e38bd84ebe19af05dd5bdf65ffc708e634, (-1, 0x587ba20473c486878be96b397d2bd24f71b6b02a1c0e1eeef402d155b5b94e1b));
   (0x40274b1c468819f3a826e08f3106d99abe6b3eab973ec22f094e99e2513cc347, (0, 0));
   (0x3e55b2a0f105ee8e1b4d94d18150e204734a895339506cb7f430d8dbce7a6ce6, (1, 0x6c998756914c9ee749fca42c640b0c5c6f47443dbe3bdd4b3e0a96e38e36a6eb));
   (0x465f0de51298eecc154aff365669952168f760a8b327c076b05b3c9bde88367f, (0, 0));
   (0x6de4c78d4dcfa3f376fe0ab5294bb80e4efb220c96af62097a9db173d503d3e9, (-1, 0xdb3e6b3825036a4cb7f8f5057a157096ee8ebaaf641fe1fe3c328f45d709c29));
   (0x15e30afcb963df85502f94539a0884a5ac021a073134b5cb71bd3f9bb37e5a9c, (0, 0));
   (0x7a0e3b6aeefda8d593c30123561881d843720bf020bee4f559b45b66a0620451, (-1, 0x748e8a00a178c26927496ddfca39bc50d7ebc3cf2e6dea2cd406a3da52785d3a));
   (0x34d68b8a3b98114e6d883adfb2da27ba7c37e7f2eb3c2819c1e948115e799b13, (0, 0));
   (0x4e36e3e97d660021171e785f00547bc35b886185a348094a3f0f84303a8268d3, (1, 0x6aa7df683b40dd2611697948ab003d7f3cd0c3dcf3c8d1bd93d754dbe7bbb1a));
   (0x399dc3291425879a5c993da23fdf3a2c7dde3e2664ce7550a9602c97eae94c59, (0, 0));
   (0x5131af66326108f942ad95735137278daf920b987578c923a8cc36f6e7b6b3aa, (0, 0));
   (0x4046986a2403ffd4a616932ca7457781f5cf7900c523d42a6c697b04ad08f00e, (1, 0x7d324067d632daad55f23f5a757ab21726f447824a0dc06c29357903be66979e));
   (0x5e8c14ccca1003641c34d0b9b382908aee582d02de30b19145597232347ff9e2, (0, 0));
   (0x448bae43d39a3ea99286febbe6214d1a8643e0d8d10b802de5791f4b1ae982d4, (-1, 0x744fdc9305909fe9d5e7f73e641e23480492a3430308075420f494e07b3e0b16));
   (0xbb322628295072b5695a9d62806ee0e4e07967c3fe1f0e9ed694463995bcfa2, (0, 0));
   (0x67c404e4d7d69a8d2616edc2d5990f1003fbfc231c9e98e78890de531f639233, (0, 0));
   (0x95bfacf769da6d0ae2b6719f9382970795efc828fbf2fa73cfb420ca5970dbe, (0, 0));
   (0x14734482226e20a306182f009ed8038434147dcdccd7fa67514daf9131f60b45, (0, 0));
   (0x42b2cdbf78a9aef5f166f23275d934efa558500993c40e6ccfa6c3f27f9451b3, (1, 0x2cc5f901969b11200b20515ed861f4298d881c4b109132fdec799f2d64839bcc));
   (0xbffef0709d669a21ec2323bbcaf77f1cac356760fb576062354f536a6d88adb, (0, 0));
   (0x23b67c463e1c92c12cf984a47c0165ee03002cdec92509e6cd8de8ec6de4d7e0, (1, 0x3b366238e628c0e85cea6b92bd2d49ce665457c6ac7f2d14827177976ff0fab0));
   (0x2f67edca1b471b7a607f9f0b5e0fe6f5b7fd4fa3d243e37a0f2182aada390b95, (0, 0));
   (0x1eb12581c5c0dd04204bea03ffe8b9e595fa371b90262ee49ae31155348ffa76, (0, 0));
   (0x3653e6f209031b018e6732e442af9704f04457078ae6879ebb6365d5b8ecdc6e, (1, 0x102b783c4a61300abad3fd5ac8d08fe16759d66ad85a7c37ac911faca4a08756));
   (0x53ac34823ab58378c7b59fda17b6b9f44c1b5a36da81ae63274d73fc76923a0, (0, 0));
   (0x45636acfcb842a6bf362169a19919acab92fccc5f4a8b9bf03e5ff59133692b2, (-1, 0x980292b5a8231cc6db7b7c148f562f689cf687aabbd87ce4c20ae6ae147280b));
   (0x43b0ea93173b3385c21fbf3f3e2e4e9766c7680c3e76087da7f1eef70f27c1b2, (0, 0));
   (0x30f8b9a04f10521577239c08b919cb98c8e3ac8906ac152ccd1f82d168286cc3, (-1, 0x2f0e52ead4bd6b1c05ee2efba86977edd688149d335b02ca8d8dfe1848b75e1c));
   (0x3161f3e78e2c351d2f21350589abc1df578e8b8635a03ff7bace1b4832694d1c, (0, 0));
   (0x3ae96f96e8b93263f290c9bfb9d347a87a3c7ee67e6ca3c385de7c93800a7ffc, (0, 0));
   (0x5d0099dd246264ce23229d22ba42d51137943cc47179aa96ccad51aee04e1748, (0, 0));
   (0x350285289b532a99ae3127816efd0c3c91466ee57b1f7b6500b52288005dbe68, (0, 0));
   (0x2f6b23716520c38d44d2b897946e5cb13be9b2077550b17ca3cafbb21d14103a, (0, 0));
   (0x6527044b9ed8d933c538622957595e2c70fa7bfba4e269781f10706ebabf38ac, (1, 0x806c2ceee4545e3a302eeda2e7a31b37232329f07758147de16d32500174346));
   (0x46d5d0b0e36c725708645fb92529572233d0f4fc6eac5461cafa9cda2df1b8e9, (0, 0));
   (0x5dc12bc549e156adaf425267e5f9731a06fb7039f3386c92459753fe818b7d78, (0, 0));
   (0x5e4e56277327a967bfeafde0c37527cf5197aad6d908abb5b45f32caac968f52, (-1, 0x676f4cc6c9542a7a08ee617f3f76667477f8d34f44733fca428124dc7e5e0907));
   (0x2ef74171899170d8abb00a0e36933c8ff820e87ae0042b648fd96ff0018e26f9, (0, 0));
   (0x2c094af4bec363216ae37f58a5cd63e190f431c9f62a26fc722013f04f31cf2b, (0, 0)) ].

Definition base_y25519 : Z := 14781619447589544791020593568409986887264606134616475288964881837755586237401.
Definition twist_x : Z := 2.
Definition twist_y : Z := 53672597578580841041358990734034634090158459834010545766973949134811981134285.
Lemma chain25519_ok : chain_check p25519 red25519 486662 1 1 9 base_y25519 chain25519 ell = true.
Proof. vm_compute. reflexivity. Qed.
Lemma chain_twist_ok : chain_check p25519 red25519 486662 1 2 twist_x twist_y chain_twist ell' = true.
Proof. vm_compute. reflexivity. Qed.
Notation d1 := (fof p25519 1).
Notation d2 := (fof p25519 2).
Notation q0 := (fof p25519 0).
Notation qA := (fof p25519 486662).
Notation q1 := (fof p25519 1).
Notation nl := (Z.to_nat ell).
Notation nl' := (Z.to_nat ell').
Notation ord25519 d := (has_order p25519 qA q1 d).
Opaque Z.to_nat.
Lemma check_on d u y : (fval (fmul d (fmul y y)) =? fval (cubic p25519 qA q1 q0 u)) = true -> on25519 d (Aff u y).
Proof. intros H. apply Z.eqb_eq in H. now apply fval_inj. Qed.
Definition B25519 : point p25519 := Aff (fof p25519 9) (fof p25519 base_y25519).
Definition Qtwist : point p25519 := Aff (fof p25519 twist_x) (fof p25519 twist_y).
Lemma on_B : on25519 d1 B25519.
Proof. apply check_on. vm_compute. reflexivity. Qed.
Lemma on_Q : on25519 d2 Qtwist.
Proof. apply check_on. vm_compute. reflexivity. Qed.
Lemma nl_eq : Z.of_nat nl = ell.
Proof. apply Z2Nat.id. discriminate. Qed.
Lemma nl'_eq : Z.of_nat nl' = ell'.
Proof. apply Z2Nat.id. discriminate. Qed.
Lemma mul_B : pmul p25519 qA q1 d1 nl B25519 = Inf.
Proof.
  exact (chain_check_ok p25519 x_p_prime x_p_odd _ _ _ _ one_ne nonsing25519 red25519 red25519_ok 486662 1 1 eq_refl eq_refl eq_refl
           9 base_y25519 chain25519 ell on_B chain25519_ok).
Qed.
Lemma mul_Q : pmul p25519 qA q1 d2 nl' Qtwist = Inf.
Proof.
  exact (chain_check_ok p25519 x_p_prime x_p_odd _ _ _ _ two_ne25519 nonsing25519 red25519 red25519_ok 486662 1 2 eq_refl eq_refl eq_refl
           twist_x twist_y chain_twist ell' on_Q chain_twist_ok).
Qed.
Lemma order_B : ord25519 d1 B25519 nl.
Proof.
  apply (g_order_prime p25519 x_p_prime x_p_odd _ _ q0 _ one_ne nonsing25519); [exact on_B|rewrite nl_eq; exact prime_ell|exact mul_B|discriminate].
Qed.
Lemma order_Q : ord25519 d2 Qtwist nl'.
Proof.
  apply (g_order_prime p25519 x_p_prime x_p_odd _ _ q0 _ two_ne25519 nonsing25519); [exact on_Q|rewrite nl'_eq; exact prime_ell'|exact mul_Q|discriminate].
Qed.

(** ** A point of order 8 on the curve, one of order 4 on the twist *)
Definition x8 : Z := 325606250916557431795983626356110631294008115727848805560023387167927233504.
Definition y8 : Z := 32026303591712962751241307547882981359278212717910236697706316503764922500307.
Definition x8' : Z := 39382357235489614581723060781553021112529911719440698176882885853963445705823.
Definition yt4 : Z := 51433253462520500264212897900760618405213415304451317506555883227270826074491.
Definition T8 : point p25519 := Aff (fof p25519 x8) (fof p25519 y8).
Definition T4' : point p25519 := Aff (fof p25519 (-1)) (fof p25519 yt4).
Lemma on_T8 : on25519 d1 T8.
Proof. apply check_on. vm_compute. reflexivity. Qed.
Lemma on_T4' : on25519 d2 T4'.
Proof. apply check_on. vm_compute. reflexivity. Qed.
Definition cd d := cdbl p25519 red25519 486662 1 d.
Definition t8_check : bool :=
  match cd 1 0x14d354c71c5b9fd73b918b22139862eb076a8e2ad298c2b2c515f84bdff2a7b8 (x8, y8) with
  | None => false
  | Some R2 =>
      (fst R2 mod p25519 =? 1) &&
      match cadd p25519 red25519 486662 1 0x6be4f497f9a9c2afc21fa77ad7f4a6ef635a11c7284a9363e9a248ef9c884416 R2 x8 y8 with
      | None => false
      | Some R3 => fst R3 mod p25519 =? x8'
      end &&
      match cd 1 0x6be4f497f9a9c2afc21fa77ad7f4a6ef635a11c7284a9363e9a248ef9c884415 R2 with
      | None => false
      | Some R4 => (fst R4 mod p25519 =? 0) && (snd R4 mod p25519 =? 0)
      end
  end.
Lemma t8_check_ok : t8_check = true.
Proof. vm_compute. reflexivity. Qed.
Definition t4_check : bool :=
  match cd 2 0xe49cf6711cd46062124d484a798723a1d06c947e38c992561c93325076d5e72 (-1, yt4) with
  | None => false
  | Some R2 => (fst R2 mod p25519 =? 0) && (snd R2 mod p25519 =? 0)
  end.
Lemma t4_check_ok : t4_check = true.
Proof. vm_compute. reflexivity. Qed.
(** ** Structure *)
Lemma zpt_eq x y x' y' : x mod p25519 = x' -> y mod p25519 = y' -> zpt p25519 (x, y) = Aff (fof p25519 x') (fof p25519 y').
Proof. intros <- <-. unfold zpt. cbn [fst snd]. now rewrite !fof_mod. Qed.
Lemma zpt_x R x : fst R mod p25519 = x -> zpt p25519 R = Aff (fof p25519 x) (fof p25519 (snd R)).
Proof. intros <-. unfold zpt. now rewrite fof_mod. Qed.
Lemma T2_double d : add25519 d (Aff q0 q0) (Aff q0 q0) = Inf.
Proof. unfold add25519, padd. rewrite feqb_refl. replace (fopp q0) with q0 by (apply fval_inj; vm_compute; reflexivity). now rewrite feqb_refl. Qed.
Lemma T8_facts : (exists y, add25519 d1 T8 T8 = Aff q1 y) /\ (exists y, add25519 d1 (add25519 d1 T8 T8) T8 = Aff (fof p25519 x8') y) /\
  add25519 d1 (add25519 d1 T8 T8) (add25519 d1 T8 T8) = Aff q0 q0.
Proof.
  pose proof t8_check_ok as C. unfold t8_check, cd in C. destruct (cdbl _ _ _ _ _ _ (x8, y8)) as [R2|] eqn:E2; [|discriminate].
  apply (cdbl_ok p25519 x_p_prime x_p_odd qA q1 q0 d1 one_ne nonsing25519 red25519 red25519_ok 486662 1 1 eq_refl eq_refl eq_refl) in E2; [|exact on_T8].
  apply andb_prop in C. destruct C as [C C4]. apply andb_prop in C. destruct C as [C2 C3].
  destruct (cadd _ _ _ _ _ R2 x8 y8) as [R3|] eqn:E3; [|discriminate].
  destruct (cdbl _ _ _ _ _ _ R2) as [R4|] eqn:E4; [|discriminate].
  apply (cadd_ok p25519 x_p_prime qA q1 d1 red25519 red25519_ok 486662 1 eq_refl eq_refl) in E3.
  apply (cdbl_ok p25519 x_p_prime x_p_odd qA q1 q0 d1 one_ne nonsing25519 red25519 red25519_ok 486662 1 1 eq_refl eq_refl eq_refl) in E4.
  2: { rewrite E2. apply (g_op p25519 x_p_prime); try exact on_T8; auto using x_p_odd, one_ne, nonsing25519. }
  change (zpt p25519 (x8, y8)) with T8 in *. change (padd p25519 qA q1 d1) with (add25519 d1) in *. rewrite E2 in *.
  apply Z.eqb_eq in C2, C3. apply andb_prop in C4. destruct C4 as [C4 C4']. apply Z.eqb_eq in C4, C4'.
  split; [|split].
  - exists (fof p25519 (snd R2)). rewrite <- E2. now apply zpt_x.
  - exists (fof p25519 (snd R3)). rewrite <- E3. now apply zpt_x.
  - rewrite <- E4. destruct R4. now apply zpt_eq.
Qed.
Lemma T4'_double : add25519 d2 T4' T4' = Aff q0 q0.
Proof.
  pose proof t4_check_ok as C. unfold t4_check, cd in C. destruct (cdbl _ _ _ _ _ _ (-1, yt4)) as [R2|] eqn:E2; [|discriminate].
  apply (cdbl_ok p25519 x_p_prime x_p_odd qA q1 q0 d2 two_ne25519 nonsing25519 red25519 red25519_ok 486662 1 2 eq_refl eq_refl eq_refl) in E2; [|exact on_T4'].
  apply andb_prop in C. destruct C as [C C']. apply Z.eqb_eq in C, C'.
  change (zpt p25519 (-1, yt4)) with T4' in *. change (padd p25519 qA q1 d2) with (add25519 d2) in *. rewrite <- E2.
  destruct R2. now apply zpt_eq.
Qed.

Add Field F25o : (fp_field p25519 x_p_prime) (morphism (fp_morph p25519), constants [fp_const]).
Section Cofactor.
  Variable d : Fp p25519.
  Hypothesis d_ne : d <> q0.
  Let N := nonsing25519.
  Lemma on_O : on25519 d (Aff q0 q0).
  Proof. unfold on25519, on_curve, cubic. ring. Qed.
  Lemma mul_2 P : mul25519 d 2 P = add25519 d P P.
  Proof. reflexivity. Qed.
  Lemma cof_mul_mul i j P : on25519 d P -> mul25519 d i (mul25519 d j P) = mul25519 d (i * j) P.
  Proof. exact (g_mul_mul p25519 x_p_prime x_p_odd qA q1 q0 d d_ne N i j P). Qed.
  Lemma cof_mul_add i j P : on25519 d P -> mul25519 d (i + j) P = add25519 d (mul25519 d i P) (mul25519 d j P).
  Proof. exact (g_mul_add p25519 x_p_prime x_p_odd qA q1 q0 d d_ne N i j P). Qed.
  Lemma cof_on i P : on25519 d P -> on25519 d (mul25519 d i P).
  Proof. exact (g_mul p25519 x_p_prime x_p_odd qA q1 q0 d d_ne i P). Qed.
  Lemma cof_inf i : mul25519 d i Inf = Inf.
  Proof. apply mul_inf. Qed.
  Lemma cof_op P Q : on25519 d P -> on25519 d Q -> on25519 d (add25519 d P Q).
  Proof. exact (g_op p25519 x_p_prime x_p_odd qA q1 q0 d d_ne P Q). Qed.
  Lemma cof_order_8 P : on25519 d P -> mul25519 d 4 P <> Inf -> mul25519 d 8 P = Inf -> ord25519 d P 8.
  Proof. exact (order_8 p25519 x_p_prime x_p_odd qA q1 q0 d d_ne N P). Qed.
  Lemma cof_order_4 P : on25519 d P -> mul25519 d 2 P <> Inf -> mul25519 d 4 P = Inf -> ord25519 d P 4.
  Proof. exact (order_4 p25519 x_p_prime x_p_odd qA q1 q0 d d_ne N P). Qed.
  Variables (T Q : point p25519) (h q : nat).
  Hypothesis OT : on25519 d T.
  Hypothesis OQ : on25519 d Q.
  Hypothesis HT : ord25519 d T h.
  Hypothesis HQ : ord25519 d Q q.
  Hypothesis Hq : prime (Z.of_nat q).
  Hypothesis q8 : (8 < q)%nat.
  Hypothesis hq : rel_prime (Z.of_nat h) (Z.of_nat q).
  Hypothesis h8 : Nat.divide h 8.
  Let g := add25519 d T Q.
  Lemma on_g : on25519 d g.
  Proof. now apply cof_op. Qed.
  Lemma order_g : ord25519 d g (h * q).
  Proof. exact (g_order_sum p25519 x_p_prime x_p_odd qA q1 q0 d d_ne N T Q h q OT OQ HT HQ hq). Qed.
  Lemma mul_q_g j : mul25519 d (j * q) g = mul25519 d ((j * q) mod h) T.
  Proof.
    unfold g. pose proof (g_mul_op p25519 x_p_prime x_p_odd qA q1 q0 d d_ne N (j * q) T Q OT OQ) as E.
    change (padd p25519 qA q1 d) with (add25519 d) in E. change (pmul p25519 qA q1 d) with (mul25519 d) in E. rewrite E.
    assert (E1 : mul25519 d (j * q) Q = Inf) by (apply HQ; apply Nat.divide_factor_r).
    rewrite E1. replace (add25519 d (mul25519 d (j * q) T) Inf) with (mul25519 d (j * q) T).
    - apply (mul_rem p25519 x_p_prime x_p_odd qA q1 q0 d d_ne N T h _ OT). apply HT. apply Nat.divide_refl.
    - symmetry. exact (g_id p25519 qA q1 d _).
  Qed.
  Hypothesis gen : forall P, on25519 d P -> exists i, P = mul25519 d i g.
  Lemma mul_all P : on25519 d P -> mul25519 d (h * q) P = Inf.
  Proof. intros O. destruct (gen P O) as [i ->]. rewrite cof_mul_mul by exact on_g. apply order_g. apply Nat.divide_factor_l. Qed.
  Lemma mul_8q P : on25519 d P -> mul25519 d q (mul25519 d 8 P) = Inf.
  Proof.
    intros O. destruct h8 as [e E]. rewrite cof_mul_mul by assumption. replace (q * 8)%nat with (e * (h * q))%nat by nia.
    rewrite <- cof_mul_mul, mul_all by assumption. apply cof_inf.
  Qed.
  Lemma order_8P P : on25519 d P -> mul25519 d 8 P <> Inf -> ord25519 d (mul25519 d 8 P) q.
  Proof.
    intros O NI. apply (g_order_prime p25519 x_p_prime x_p_odd qA q1 q0 d d_ne N); [now apply cof_on|exact Hq|now apply mul_8q|exact NI].
  Qed.
  (** the points P with [8]P = O are the multiples of T *)
  Lemma low_order P : on25519 d P -> mul25519 d 8 P = Inf <-> exists j, (j < h)%nat /\ P = mul25519 d j T.
  Proof.
    intros O. split.
    - intros H. destruct (gen P O) as [i ->]. rewrite cof_mul_mul in H by exact on_g. apply order_g in H.
      assert (D : Nat.divide q i).
      { destruct h8 as [e E]. destruct H as [f F]. rewrite E in F.
        assert (Hh : (h <> 0)%nat) by (destruct HT; lia).
        assert (F' : (e * i = f * q)%nat) by (apply (Nat.mul_cancel_l _ _ h Hh); nia).
        apply (Nat.gauss q e i); [exists f; lia|]. apply rel_prime_gcd. apply prime_rel_prime; [exact Hq|].
        assert (0 < e <= 8)%nat by nia. intros D8. apply Z.divide_pos_le in D8; lia. }
      destruct D as [j ->]. rewrite mul_q_g. eexists. split; [|reflexivity]. apply Nat.mod_upper_bound. destruct HT; lia.
    - intros (j & _ & ->). rewrite cof_mul_mul by assumption. apply HT. destruct h8 as [e E]. exists (e * j)%nat. rewrite E. nia.
  Qed.
  (** a multiple of P by 8m, with m below the prime, has abscissa 0 only if [8]P = O *)
  Lemma zero_iff P m : on25519 d P -> (0 < m < q)%nat ->
    abscissa (mul25519 d (8 * m) P) = 0 <-> mul25519 d 8 P = Inf.
  Proof.
    intros O Hm. rewrite (Nat.mul_comm 8), <- cof_mul_mul by assumption. split.
    2: { intros ->. now rewrite cof_inf. }
    intros Z. destruct (point_eq p25519 (mul25519 d 8 P) Inf) as [E|NE]; [exact E|exfalso].
    pose proof (order_8P P O NE) as R. set (X := mul25519 d 8 P) in *. assert (OX : on25519 d X) by now apply cof_on.
    assert (D : Nat.divide q (2 * m)).
    { apply R. change (mul25519 d (2 * m) X = Inf). rewrite <- cof_mul_mul by assumption.
      pose proof (cof_on m X OX) as OM. destruct (mul25519 d m X) as [|x y]; [apply cof_inf|].
      cbn [abscissa] in Z. assert (Ex : x = q0) by (apply fval_inj; exact Z). subst x.
      assert (Ey : y = q0).
      { unfold on25519, on_curve, cubic in OM. assert (S : fmul d (fmul y y) = q0) by (rewrite OM; ring).
        apply (fmul_0 p25519 x_p_prime) in S. destruct S as [S|S]; [contradiction|]. apply (fmul_0 p25519 x_p_prime) in S. tauto. }
      subst y. rewrite mul_2. apply T2_double. }
    apply (Nat.gauss q 2 m) in D.
    - apply Nat.divide_pos_le in D; lia.
    - apply rel_prime_gcd. apply prime_rel_prime; [exact Hq|]. intros D2. apply Z.divide_pos_le in D2; lia.
  Qed.
  (** when two such multiples have the same abscissa *)
  Lemma equal_iff P m m' : on25519 d P -> mul25519 d 8 P <> Inf -> (0 < m < q)%nat -> (0 < m' < q)%nat ->
    abscissa (mul25519 d (8 * m) P) = abscissa (mul25519 d (8 * m') P) <-> m = m' \/ (m + m' = q)%nat.
  Proof.
    intros O NE Hm Hm'. rewrite !(Nat.mul_comm 8), <- !cof_mul_mul by assumption.
    pose proof (order_8P P O NE) as R. set (X := mul25519 d 8 P) in *. assert (OX : on25519 d X) by now apply cof_on.
    assert (NF : forall k, (0 < k < q)%nat -> mul25519 d k X <> Inf).
    { intros k Hk E. apply R in E. apply Nat.divide_pos_le in E; lia. }
    assert (NN : (m + m' = q)%nat <-> mul25519 d m X = pneg p25519 (mul25519 d m' X)).
    { split.
      - intros E. symmetry. rewrite (Nat.add_comm) in E.
        assert (Z : add25519 d (mul25519 d m' X) (mul25519 d m X) = Inf) by (rewrite <- cof_mul_add, E by assumption; now apply R).
        symmetry. exact (g_inv_unique p25519 x_p_prime x_p_odd qA q1 q0 d d_ne N _ _ (cof_on _ _ OX) (cof_on _ _ OX) Z).
      - intros E. assert (Z : mul25519 d (m' + m) X = Inf).
        { rewrite cof_mul_add, E by assumption. apply (g_inv p25519 x_p_prime). }
        apply R in Z. destruct Z as [z Z]. assert (z = 1)%nat by nia. nia. }
    split.
    - intros A. pose proof (NF m Hm) as F. pose proof (NF m' Hm') as F'. pose proof (cof_on m X OX) as P1. pose proof (cof_on m' X OX) as P2.
      destruct (mul25519 d m X) as [|x y] eqn:E1; [congruence|]. destruct (mul25519 d m' X) as [|x' y'] eqn:E2; [congruence|].
      cbn [abscissa] in A. apply fval_inj in A. subst x'.
      destruct (g_same_x p25519 x_p_prime qA q1 q0 d d_ne x y' y P2 P1) as [H|H].
      + left. rewrite H, <- E2 in E1. apply (g_order_mod p25519 x_p_prime x_p_odd qA q1 q0 d d_ne N X q m m' OX R) in E1.
        rewrite !Nat.mod_small in E1; lia.
      + right. apply NN. now rewrite <- H.
    - intros [->|E]; [reflexivity|]. apply NN in E. rewrite E. destruct (mul25519 d m' X); reflexivity.
  Qed.
End Cofactor.
(** ** The curve *)
Lemma mul4 d P : d <> q0 -> on25519 d P -> mul25519 d 4 P = add25519 d (add25519 d P P) (add25519 d P P).
Proof. intros Nd O. exact (eq_sym (cof_mul_mul d Nd 2 2 P O)). Qed.
Lemma mul4_T8 : mul25519 d1 4 T8 = Aff q0 q0.
Proof. rewrite (mul4 d1 T8 one_ne on_T8). exact (proj2 (proj2 T8_facts)). Qed.
Lemma mul8 d P : d <> q0 -> on25519 d P -> mul25519 d 8 P = mul25519 d 2 (mul25519 d 4 P).
Proof. intros Nd O. exact (eq_sym (cof_mul_mul d Nd 2 4 P O)). Qed.
Lemma mul8_T8 : mul25519 d1 8 T8 = Inf.
Proof. rewrite (mul8 d1 T8 one_ne on_T8), mul4_T8. apply T2_double. Qed.
Lemma mul4_T8_ne : mul25519 d1 4 T8 <> Inf.
Proof. rewrite mul4_T8. discriminate. Qed.
Lemma order_T8 : ord25519 d1 T8 8.
Proof. exact (cof_order_8 d1 one_ne T8 on_T8 mul4_T8_ne mul8_T8). Qed.
Lemma rel_8_l : rel_prime (Z.of_nat 8) (Z.of_nat nl).
Proof. rewrite nl_eq. apply Zgcd_1_rel_prime. vm_compute. reflexivity. Qed.
Lemma rel_4_l' : rel_prime (Z.of_nat 4) (Z.of_nat nl').
Proof. rewrite nl'_eq. apply Zgcd_1_rel_prime. vm_compute. reflexivity. Qed.
Definition g1 : point p25519 := add25519 d1 T8 B25519.
Lemma big_8l : 2 * p25519 + 1 < 2 * Z.of_nat (8 * nl).
Proof. rewrite Nat2Z.inj_mul, nl_eq. reflexivity. Qed.
Lemma on_g1 : on25519 d1 g1.
Proof. exact (on_g d1 one_ne T8 B25519 on_T8 on_B). Qed.
Lemma order_g1 : ord25519 d1 g1 (8 * nl).
Proof. exact (order_g d1 one_ne T8 B25519 8 nl on_T8 on_B order_T8 order_B rel_8_l). Qed.
Lemma gen1 P : on25519 d1 P -> exists i, P = mul25519 d1 i g1.
Proof.
  intros O. exact (g_all_half p25519 x_p_prime x_p_odd qA q1 q0 d1 one_ne nonsing25519 g1 (8 * nl) on_g1 order_g1 P big_8l O).
Qed.

(** ** The twist *)
Lemma order_T4' : ord25519 d2 T4' 4.
Proof.
  assert (E : mul25519 d2 2 T4' <> Inf) by (rewrite mul_2, T4'_double; discriminate).
  assert (E' : mul25519 d2 4 T4' = Inf) by (rewrite (mul4 d2 T4' two_ne25519 on_T4'), T4'_double; apply T2_double).
  exact (cof_order_4 d2 two_ne25519 T4' on_T4' E E').
Qed.
Definition g2 : point p25519 := add25519 d2 T4' Qtwist.
Lemma on_g2 : on25519 d2 g2.
Proof. exact (on_g d2 two_ne25519 T4' Qtwist on_T4' on_Q). Qed.
Lemma order_g2 : ord25519 d2 g2 (4 * nl').
Proof. exact (order_g d2 two_ne25519 T4' Qtwist 4 nl' on_T4' on_Q order_T4' order_Q rel_4_l'). Qed.
Lemma big_4l' : 2 * p25519 + 1 < 3 * Z.of_nat (4 * nl').
Proof. rewrite Nat2Z.inj_mul, nl'_eq. reflexivity. Qed.
(** the residue A - 2 is not a square, A + 2 and -1 are *)
Lemma euler p h (z : Fp p) n : prime p -> p - 1 = h + h -> 0 <= h -> 0 <= n < p -> n <> 0 -> fmul z z = fof p n -> fpow n h p = 1.
Proof.
  intros Hp Hh H0 Hn Nn E.
  assert (NZ : z <> fof p 0).
  { intros ->. rewrite <- fof_mul in E. apply fof_inj in E. rewrite (Z.mod_small n), Z.mod_small in E by lia. lia. }
  pose proof (fpw_fermat p Hp z NZ) as F. rewrite Hh, (fpw_add p z) in F by assumption.
  rewrite <- (fpw_mul p Hp), E in F. unfold fpw in F. apply (f_equal fval) in F. rewrite !fval_of, (Z.mod_small n) in F by lia.
  rewrite fpow_spec by lia. rewrite F. apply Z.mod_small. pose proof (prime_ge_2 p Hp). lia.
Qed.
Definition half25519 : Z := 2 ^ 254 - 10.
Lemma A_minus_2_euler : (fpow 486660 half25519 p25519 =? 1) = false.
Proof. vm_compute. reflexivity. Qed.
Lemma half25519_ok : (p25519 - 1 =? half25519 + half25519) && (0 <=? half25519) && (486660 <? p25519) = true.
Proof. vm_compute. reflexivity. Qed.
Lemma A_minus_2 (z : Fp p25519) : fmul z z <> fof p25519 486660.
Proof.
  intros E. pose proof half25519_ok as C. rewrite !andb_true_iff, Z.eqb_eq, Z.leb_le, Z.ltb_lt in C. destruct C as [[C1 C2] C3].
  pose proof A_minus_2_euler as H. apply Z.eqb_neq in H. apply H.
  refine (euler p25519 half25519 z 486660 x_p_prime C1 C2 (conj _ C3) _ E); discriminate.
Qed.
Definition root_A2 : Z := 48802004052532134862652268456126542835229456083994414501085850622543968879637.
Definition root_m1 : Z := 0x2b8324804fc1df0b2b4d00993dfbd7a72f431806ad2fe478c4ee1b274a0ea0b0.
Notation "# n" := (fof p25519 n) (at level 5, n at level 0).
Lemma root_A2_ok : fmul (#root_A2) (#root_A2) = #486664.
Proof. apply fval_inj. vm_compute. reflexivity. Qed.
Lemma root_m1_ok : fmul (#root_m1) (#root_m1) = fopp (#1).
Proof. apply fval_inj. vm_compute. reflexivity. Qed.
Lemma root_A2_ne : #root_A2 <> #0.
Proof. intros H. apply (f_equal fval) in H. vm_compute in H. discriminate. Qed.
Lemma root_m1_ne : #root_m1 <> #0.
Proof. intros H. apply (f_equal fval) in H. vm_compute in H. discriminate. Qed.
(** the points of order two *)
Lemma two_torsion d P : d <> #0 -> on25519 d P -> add25519 d P P = Inf -> P = Inf \/ P = Aff (#0) (#0).
Proof.
  intros Nd O T. destruct P as [|x y]; [now left|right].
  assert (Y : y = #0).
  { apply (double_0 p25519 x_p_prime x_p_odd). unfold add25519, padd in T. rewrite feqb_refl in T.
    destruct (feqb_spec p25519 y (fopp y)) as [E|E]; [exact E|discriminate]. }
  subst y. f_equal. unfold on25519, on_curve, cubic in O.
  assert (C : fmul x (fadd (fadd (fmul x x) (fmul (#486662) x)) (#1)) = #0).
  { transitivity (fmul d (fmul (#0) (#0))); [rewrite O; ring|ring]. }
  apply (fmul_0 p25519 x_p_prime) in C. destruct C as [C|C]; [exact C|exfalso].
  apply (A_minus_2 (fdiv (fadd (fmul (#2) x) (#486662)) (#root_A2))).
  transitivity (fdiv (fmul (fadd (fmul (#2) x) (#486662)) (fadd (fmul (#2) x) (#486662))) (fmul (#root_A2) (#root_A2))).
  { field. exact root_A2_ne. }
  rewrite root_A2_ok.
  transitivity (fdiv (fadd (fmul (#4) (fadd (fadd (fmul x x) (fmul (#486662) x)) (#1))) (fmul (#486660) (#486664))) (#486664)).
  { f_equal. ring. }
  rewrite C. field. intros H. apply (f_equal fval) in H. vm_compute in H. discriminate.
Qed.
(** no point has a double of abscissa -1 *)
Section Half.
  Variable p : Z.
  Hypothesis Hp : prime p.
  Hypothesis p_odd : p <> 2.
  Add Field Fph : (fp_field p Hp) (morphism (fp_morph p), constants [fp_const]).
  Lemma double_x (a b c d x y x' y' : Fp p) : d <> fof p 0 -> on_curve p a b c d (Aff x y) -> padd p a b d (Aff x y) (Aff x y) = Aff x' y' ->
    fmul (cubic' p a b x) (cubic' p a b x) = fmul (fmul (fof p 4) (cubic p a b c x)) (fadd (fadd x' a) (fmul (fof p 2) x)).
  Proof.
    intros Nd O. unfold padd. rewrite feqb_refl. destruct (feqb_spec p y (fopp y)) as [Y|Y]; [discriminate|].
    unfold line3. intros [= <- _]. unfold on_curve in O. rewrite <- O.
    assert (NY : y <> fof p 0) by (intros ->; apply Y; ring). pose proof (two_ne p Hp p_odd).
    field. auto.
  Qed.
  Lemma double_m1 (a d x y y' : Fp p) : d <> fof p 0 -> on_curve p a (fof p 1) (fof p 0) d (Aff x y) ->
    padd p a (fof p 1) d (Aff x y) (Aff x y) = Aff (fopp (fof p 1)) y' ->
    fmul (fmul (fadd x (fof p 1)) (fadd x (fof p 1))) (fmul (fadd x (fof p 1)) (fadd x (fof p 1))) =
    fopp (fmul (fsub a (fof p 2)) (fmul (fmul (fof p 2) x) (fmul (fof p 2) x))) /\ fmul (fof p 2) x <> fof p 0.
  Proof.
    intros Nd O E. pose proof (double_x _ _ _ _ _ _ _ _ Nd O E) as K. unfold cubic, cubic' in K. split.
    - apply (sub_0 p Hp).
      transitivity (fsub (fmul (fmul (fof p 4) (cubic p a (fof p 1) (fof p 0) x)) (fadd (fadd (fopp (fof p 1)) a) (fmul (fof p 2) x)))
        (fmul (cubic' p a (fof p 1) x) (cubic' p a (fof p 1) x))); [unfold cubic, cubic'; ring|].
      unfold cubic, cubic' in *. rewrite K. ring.
    - intros X. apply (fmul_0 p Hp) in X. destruct X as [X|X]; [exact (two_ne p Hp p_odd X)|]. subst x.
      apply (F_1_neq_0 (fp_field p Hp)).
      match type of K with ?l = ?r => transitivity l; [ring|rewrite K; ring] end.
  Qed.
End Half.
Lemma no_half d P : d <> #0 -> on25519 d P -> forall y, add25519 d P P <> Aff (#(-1)) y.
Proof.
  intros Nd O y' E. destruct P as [|x y]; [discriminate|].
  assert (M : #(-1) = fopp (#1)) by exact (fof_opp p25519 1). rewrite M in E.
  destruct (double_m1 p25519 x_p_prime x_p_odd (#486662) d x y y' Nd O E) as [K X].
  set (v := fadd x (#1)) in *. set (w := fmul (#2) x) in *.
  apply (A_minus_2 (fdiv (fmul v v) (fmul (#root_m1) w))).
  transitivity (fdiv (fmul (fmul v v) (fmul v v)) (fmul (fmul (#root_m1) (#root_m1)) (fmul w w))).
  { field. split; [exact X|exact root_m1_ne]. }
  rewrite K, root_m1_ok. replace (#486660) with (fsub (#486662) (#2)) by (rewrite <- fof_sub; reflexivity).
  field. split; [exact X|]. intros H. apply (f_equal fval) in H. vm_compute in H. discriminate.
Qed.
Lemma four_of i : (Nat.odd i = true -> i mod 4 = 1 \/ i mod 4 = 3)%nat.
Proof.
  intros H. apply Nat.odd_spec in H. destruct H as [k Hk]. pose proof (Nat.div_mod i 4). pose proof (Nat.mod_upper_bound i 4). lia.
Qed.
Lemma nl'_mod4 : (nl' mod 4 = 1)%nat.
Proof. apply Nat2Z.inj. rewrite Nat2Z.inj_mod, nl'_eq. reflexivity. Qed.
Lemma mul3 d P : d <> #0 -> on25519 d P -> mul25519 d 4 P = Inf -> mul25519 d 3 P = pneg p25519 P.
Proof.
  intros Nd O H.
  apply (g_inv_unique p25519 x_p_prime x_p_odd (#486662) (#1) (#0) d Nd nonsing25519 P (mul25519 d 3 P) O (cof_on d Nd 3 P O)).
  rewrite <- H. exact (eq_sym (cof_mul_add d Nd 1 3 P O)).
Qed.
Lemma T4'_order : mul25519 d2 4 T4' = Inf.
Proof. rewrite (mul4 d2 T4' two_ne25519 on_T4'), T4'_double. apply T2_double. Qed.
Lemma mul_l'_g2 j : mul25519 d2 (j * nl') g2 = mul25519 d2 (j mod 4) T4'.
Proof.
  unfold g2. rewrite (mul_q_g d2 two_ne25519 T4' Qtwist 4 nl' on_T4' on_Q order_T4' order_Q j). f_equal.
  rewrite Nat.mul_mod, nl'_mod4, Nat.mul_1_r, Nat.mod_mod by discriminate. reflexivity.
Qed.
Lemma mod4_1 n : (n mod 4 = 1 -> exists h, n = 4 * h + 1)%nat.
Proof. intros E. exists (n / 4)%nat. pose proof (Nat.div_mod n 4). lia. Qed.
Lemma mul_2l'_g2 : mul25519 d2 (2 * nl') g2 = Aff q0 q0.
Proof. rewrite mul_l'_g2. replace (2 mod 4)%nat with 2%nat by reflexivity. rewrite mul_2. exact T4'_double. Qed.
Lemma mul_1 d P : mul25519 d 1 P = P.
Proof. reflexivity. Qed.
Lemma neg_T4' : exists y, pneg p25519 T4' = Aff (#(-1)) y.
Proof. eexists. reflexivity. Qed.
Lemma neg_neg_T4' : exists y, pneg p25519 (pneg p25519 T4') = Aff (#(-1)) y.
Proof. eexists. reflexivity. Qed.
Lemma gen2 P : on25519 d2 P -> exists i, P = mul25519 d2 i g2.
Proof.
  intros O. pose proof two_ne25519 as Nd.
  destruct (g_all_third p25519 x_p_prime x_p_odd qA q1 q0 d2 Nd nonsing25519 g2 (4 * nl') on_g2 order_g2 P big_4l' O) as [H|[i H]]; [exact H|].
  change (add25519 d2 P P = mul25519 d2 i g2) in H.
  (* a point of the group with the same double, up to a multiple of g2 *)
  assert (S : forall j t, add25519 d2 (mul25519 d2 j g2) (mul25519 d2 t g2) = mul25519 d2 (j + t) g2).
  { intros. symmetry. apply (cof_mul_add d2 Nd). exact on_g2. }
  assert (D : forall Q, on25519 d2 Q -> on25519 d2 (add25519 d2 P (pneg p25519 Q)) /\ P = add25519 d2 (add25519 d2 P (pneg p25519 Q)) Q /\
    add25519 d2 (add25519 d2 P (pneg p25519 Q)) (add25519 d2 P (pneg p25519 Q)) = add25519 d2 (mul25519 d2 i g2) (pneg p25519 (add25519 d2 Q Q))).
  { intros Q OQ. pose proof (g_neg p25519 x_p_prime qA q1 q0 d2 Q OQ) as ON. split; [|split].
    - now apply (cof_op d2 Nd).
    - transitivity (add25519 d2 P (add25519 d2 (pneg p25519 Q) Q)).
      + transitivity (add25519 d2 P Inf); [symmetry; exact (g_id p25519 qA q1 d2 P)|]. f_equal. symmetry.
        transitivity (add25519 d2 Q (pneg p25519 Q)); [exact (g_comm p25519 x_p_prime qA q1 q0 d2 Nd _ _ ON OQ)|apply (g_inv p25519 x_p_prime)].
      + symmetry. exact (g_assoc p25519 x_p_prime x_p_odd qA q1 q0 d2 Nd nonsing25519 _ _ _ O ON OQ).
    - rewrite <- H. transitivity (add25519 d2 (add25519 d2 P P) (add25519 d2 (pneg p25519 Q) (pneg p25519 Q))).
      + exact (g_mul_op p25519 x_p_prime x_p_odd qA q1 q0 d2 Nd nonsing25519 2 P (pneg p25519 Q) O ON).
      + f_equal. exact (g_neg_mul p25519 x_p_prime x_p_odd qA q1 q0 d2 Nd nonsing25519 2 Q OQ). }
  assert (V : forall a X, on25519 d2 a -> on25519 d2 X -> add25519 d2 a (pneg p25519 (add25519 d2 a X)) = pneg p25519 X).
  { intros a X Oa OX. pose proof (cof_op d2 Nd a X Oa OX) as OS. pose proof (g_neg p25519 x_p_prime qA q1 q0 d2 _ OS) as OM.
    apply (g_inv_unique p25519 x_p_prime x_p_odd qA q1 q0 d2 Nd nonsing25519 X _ OX); [now apply (cof_op d2 Nd)|].
    transitivity (add25519 d2 (add25519 d2 X a) (pneg p25519 (add25519 d2 a X))).
    - symmetry. exact (g_assoc p25519 x_p_prime x_p_odd qA q1 q0 d2 Nd nonsing25519 _ _ _ OX Oa OM).
    - transitivity (add25519 d2 (add25519 d2 a X) (pneg p25519 (add25519 d2 a X))); [|apply (g_inv p25519 x_p_prime)].
      f_equal. exact (g_comm p25519 x_p_prime qA q1 q0 d2 Nd _ _ OX Oa). }
  destruct (Nat.even i) eqn:Ev.
  - apply Nat.even_spec in Ev. destruct Ev as [h ->].
    destruct (D (mul25519 d2 h g2) (cof_on d2 Nd h g2 on_g2)) as (O' & E & E2).
    rewrite S in E2. replace (h + h)%nat with (2 * h)%nat in E2 by lia.
    replace (add25519 d2 (mul25519 d2 (2 * h) g2) (pneg p25519 (mul25519 d2 (2 * h) g2))) with (@Inf p25519) in E2 by (symmetry; apply (g_inv p25519 x_p_prime)).
    destruct (two_torsion d2 _ Nd O' E2) as [Z|Z]; rewrite Z in E.
    + exists h. exact E.
    + exists (2 * nl' + h)%nat. rewrite E, <- S, mul_2l'_g2. reflexivity.
  - exfalso. assert (Od : Nat.odd i = true) by (unfold Nat.odd; now rewrite Ev).
    assert (Hl : exists h, (nl' = 4 * h + 1)%nat).
    { exact (mod4_1 nl' nl'_mod4). }
    destruct Hl as [h Hl].
    destruct (D (mul25519 d2 (i * (2 + 6 * h)) g2) (cof_on d2 Nd _ g2 on_g2)) as (O' & _ & E2).
    rewrite S in E2. replace (i * (2 + 6 * h) + i * (2 + 6 * h))%nat with (i + (3 * i) * nl')%nat in E2 by nia.
    rewrite <- S, V in E2; [|apply (cof_on d2 Nd _ g2 on_g2)|apply (cof_on d2 Nd _ g2 on_g2)].
    rewrite mul_l'_g2 in E2.
    destruct (four_of i Od) as [M|M].
    + replace (3 * i mod 4)%nat with 3%nat in E2.
      2: { rewrite Nat.mul_mod, M by discriminate. reflexivity. }
      rewrite (mul3 d2 T4' Nd on_T4' T4'_order) in E2. destruct neg_neg_T4' as [y Y]. rewrite Y in E2. exact (no_half d2 _ Nd O' _ E2).
    + replace (3 * i mod 4)%nat with 1%nat in E2.
      2: { rewrite Nat.mul_mod, M by discriminate. reflexivity. }
      rewrite mul_1 in E2. destruct neg_T4' as [y Y]. rewrite Y in E2. exact (no_half d2 _ Nd O' _ E2).
Qed.
(** ** The points of small order *)
Lemma eight_minus d j P : d <> #0 -> on25519 d P -> mul25519 d 8 P = Inf -> (j <= 8)%nat -> mul25519 d (8 - j) P = pneg p25519 (mul25519 d j P).
Proof.
  intros Nd O H L.
  apply (g_inv_unique p25519 x_p_prime x_p_odd (#486662) (#1) (#0) d Nd nonsing25519 _ _ (cof_on d Nd j P O) (cof_on d Nd (8 - j) P O)).
  rewrite <- H. transitivity (mul25519 d (j + (8 - j)) P); [exact (eq_sym (cof_mul_add d Nd j (8 - j) P O))|]. f_equal. lia.
Qed.
Lemma mul3_add d P : d <> #0 -> on25519 d P -> mul25519 d 3 P = add25519 d (add25519 d P P) P.
Proof. intros Nd O. exact (cof_mul_add d Nd 2 1 P O). Qed.
Definition small_curve (x : Fp p25519) : Prop := x = #0 \/ x = #1 \/ x = #x8 \/ x = #x8'.
Definition small_twist (x : Fp p25519) : Prop := x = #0 \/ x = #(-1).
Definition has_x (S : Fp p25519 -> Prop) (P : point p25519) : Prop := match P with Inf => True | Aff x _ => S x end.
Lemma has_x_neg S P : has_x S P -> has_x S (pneg p25519 P).
Proof. destruct P; auto. Qed.
Lemma small_T8 j : (j <= 4)%nat -> has_x small_curve (mul25519 d1 j T8).
Proof.
  intros L. destruct T8_facts as ((y2 & E2) & (y3 & E3) & E4). unfold has_x, small_curve.
  assert (j = 0 \/ j = 1 \/ j = 2 \/ j = 3 \/ j = 4)%nat as [->|[->|[->|[->| ->]]]] by lia.
  - exact I.
  - rewrite mul_1. unfold T8. do 2 right. left. reflexivity.
  - rewrite mul_2, E2. right. left. reflexivity.
  - rewrite (mul3_add d1 T8 one_ne on_T8), E3. do 3 right. reflexivity.
  - rewrite mul4_T8. left. reflexivity.
Qed.
Lemma nl_8 : (8 < nl)%nat.
Proof. apply Nat2Z.inj_lt. rewrite nl_eq. reflexivity. Qed.
Lemma nl'_8 : (8 < nl')%nat.
Proof. apply Nat2Z.inj_lt. rewrite nl'_eq. reflexivity. Qed.
Lemma pnl : prime (Z.of_nat nl).
Proof. rewrite nl_eq. exact prime_ell. Qed.
Lemma pnl' : prime (Z.of_nat nl').
Proof. rewrite nl'_eq. exact prime_ell'. Qed.
Lemma div_88 : Nat.divide 8 8.
Proof. exists 1%nat. reflexivity. Qed.
Lemma div_48 : Nat.divide 4 8.
Proof. exists 2%nat. reflexivity. Qed.
Lemma small_1 x y : on25519 d1 (Aff x y) -> mul25519 d1 8 (Aff x y) = Inf -> small_curve x.
Proof.
  intros O H.
  apply (low_order d1 one_ne T8 B25519 8 nl on_T8 on_B order_T8 order_B) in H; [|exact pnl|exact nl_8|exact rel_8_l|exact div_88|exact gen1|exact O].
  destruct H as (j & Lj & E).
  assert (X : has_x small_curve (Aff x y)).
  { rewrite E. destruct (le_lt_dec j 4) as [L|L]; [now apply small_T8|].
    replace j with (8 - (8 - j))%nat by lia. rewrite (eight_minus d1 (8 - j) T8 one_ne on_T8 mul8_T8) by lia.
    apply has_x_neg. apply small_T8. lia. }
  exact X.
Qed.
Lemma small_2 x y : on25519 d2 (Aff x y) -> mul25519 d2 8 (Aff x y) = Inf -> small_twist x.
Proof.
  intros O H.
  apply (low_order d2 two_ne25519 T4' Qtwist 4 nl' on_T4' on_Q order_T4' order_Q) in H; [|exact pnl'|exact nl'_8|exact rel_4_l'|exact div_48|exact gen2|exact O].
  destruct H as (j & Lj & E).
  assert (X : has_x small_twist (Aff x y)).
  { rewrite E. assert (j = 0 \/ j = 1 \/ j = 2 \/ j = 3)%nat as [->|[->|[->| ->]]] by lia; unfold has_x, small_twist.
    - exact I.
    - rewrite mul_1. unfold T4'. right. reflexivity.
    - rewrite mul_2, T4'_double. left. reflexivity.
    - rewrite (mul3 d2 T4' two_ne25519 on_T4' T4'_order). destruct neg_T4' as [y' ->]. right. reflexivity. }
  exact X.
Qed.
Lemma scalar_8 s : exists m, Z.to_nat (rfc_decode_scalar s) = (8 * m)%nat /\ rfc_decode_scalar s = 8 * Z.of_nat m /\ (0 < m < nl)%nat /\ (m < nl')%nat.
Proof.
  pose proof (scalar_range s) as R. exists (Z.to_nat (2 ^ 251 + le_decode s mod 2 ^ 254 / 8)).
  assert (E : rfc_decode_scalar s = 8 * (2 ^ 251 + le_decode s mod 2 ^ 254 / 8)) by (unfold rfc_decode_scalar; ring).
  rewrite E in *. set (m := 2 ^ 251 + le_decode s mod 2 ^ 254 / 8) in *.
  assert (B : 0 < m < ell /\ m < ell') by (unfold ell, ell'; lia).
  split; [|split; [|split]].
  - rewrite Z2Nat.inj_mul by lia. reflexivity.
  - rewrite Z2Nat.id by lia. reflexivity.
  - split; [|]; apply Nat2Z.inj_lt; rewrite ?nl_eq, Z2Nat.id by lia; lia.
  - apply Nat2Z.inj_lt. rewrite nl'_eq, Z2Nat.id by lia. lia.
Qed.
Lemma zero_1 s P : on25519 d1 P -> abscissa (mul25519 d1 (Z.to_nat (rfc_decode_scalar s)) P) = 0 <-> mul25519 d1 8 P = Inf.
Proof.
  intros O. destruct (scalar_8 s) as (m & -> & _ & L & _).
  apply (zero_iff d1 one_ne T8 B25519 8 nl on_T8 on_B order_T8 order_B pnl nl_8 rel_8_l div_88 gen1 P m O L).
Qed.
Lemma zero_2 s P : on25519 d2 P -> abscissa (mul25519 d2 (Z.to_nat (rfc_decode_scalar s)) P) = 0 <-> mul25519 d2 8 P = Inf.
Proof.
  intros O. destruct (scalar_8 s) as (m & -> & _ & L & L').
  apply (zero_iff d2 two_ne25519 T4' Qtwist 4 nl' on_T4' on_Q order_T4' order_Q pnl' nl'_8 rel_4_l' div_48 gen2 P m O). lia.
Qed.
Lemma equal_1 s t P : on25519 d1 P -> mul25519 d1 8 P <> Inf ->
  abscissa (mul25519 d1 (Z.to_nat (rfc_decode_scalar s)) P) = abscissa (mul25519 d1 (Z.to_nat (rfc_decode_scalar t)) P) <->
  rfc_decode_scalar s = rfc_decode_scalar t \/ rfc_decode_scalar s + rfc_decode_scalar t = 8 * ell.
Proof.
  intros O NE. destruct (scalar_8 s) as (m & -> & E & L & _). destruct (scalar_8 t) as (m' & -> & E' & L' & _). rewrite E, E'.
  rewrite (equal_iff d1 one_ne T8 B25519 8 nl on_T8 on_B order_T8 order_B pnl nl_8 rel_8_l div_88 gen1 P m m' O NE L L').
  rewrite <- nl_eq. lia.
Qed.
Lemma equal_2 s t P : on25519 d2 P -> mul25519 d2 8 P <> Inf ->
  abscissa (mul25519 d2 (Z.to_nat (rfc_decode_scalar s)) P) = abscissa (mul25519 d2 (Z.to_nat (rfc_decode_scalar t)) P) <->
  rfc_decode_scalar s = rfc_decode_scalar t \/ rfc_decode_scalar s + rfc_decode_scalar t = 8 * ell'.
Proof.
  intros O NE. destruct (scalar_8 s) as (m & -> & E & L & M). destruct (scalar_8 t) as (m' & -> & E' & L' & M'). rewrite E, E'.
  rewrite (equal_iff d2 two_ne25519 T4' Qtwist 4 nl' on_T4' on_Q order_T4' order_Q pnl' nl'_8 rel_4_l' div_48 gen2 P m m' O NE); [|lia|lia].
  rewrite <- nl'_eq. lia.
Qed.
