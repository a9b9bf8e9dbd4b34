(** Data of the proofs about periods, found by search outside: prime numbers with
    witnesses and, for every transition, a polynomial that annihilates it, the levels of
    a certificate for its order, and the combinations of an orbit that give the basis.
    They are checked in PeriodCert.v; no part of the code is modelled here. *)
From Coq Require Import NArith List.
From Verif Require Import PeriodPrime.
Import ListNotations.
Open Scope N_scope.

(** Prime numbers with certificates of primality. *)
Definition primes : list entry :=
  [(3, 2, [2]);
   (5, 2, [2]);
   (17, 3, [2; 2]);
   (257, 3, [2; 2; 2; 2]);
   (65537, 3, [2; 2; 2; 2; 2; 2; 2; 2]);
   (641, 3, [2; 2; 2; 2; 2]);
   (11, 2, [2; 5]);
   (727, 5, [2; 3; 11]);
   (17449, 14, [2; 2; 2; 3; 727]);
   (6700417, 5, [2; 2; 2; 2; 2; 2; 2; 3; 17449]);
   (274177, 5, [2; 2; 2; 2; 2; 2; 2; 2; 3]);
   (23, 5, [2; 11]);
   (47, 5, [2; 23]);
   (31, 3, [2; 3]);
   (373, 2, [2; 2; 3; 31]);
   (67280421310721, 3, [2; 2; 2; 2; 2; 2; 2; 2; 5; 47; 373]);
   (7, 3, [2]);
   (449, 3, [2; 2; 2; 2; 2]);
   (181, 2, [2; 2; 3; 3]);
   (137, 3, [2; 2; 2; 17]);
   (823, 3, [2; 3; 137]);
   (52673, 3, [2; 2; 2; 2; 2; 2; 823]);
   (1896229, 2, [2; 2; 3; 3; 52673]);
   (18533742247, 6, [2; 3; 3; 3; 181; 1896229]);
   (116503103764643, 2, [2; 7; 449; 18533742247]);
   (59649589127497217, 3, [2; 2; 2; 2; 2; 2; 2; 2; 2; 116503103764643]);
   (12497, 3, [2; 2; 2; 2; 11]);
   (61, 2, [2; 2; 3]);
   (367, 6, [2; 3; 61]);
   (2203, 5, [2; 3; 367]);
   (139, 2, [2; 3; 23]);
   (6939437, 2, [2; 2; 7; 139]);
   (55515497, 3, [2; 2; 2; 6939437]);
   (733803839347, 2, [2; 3; 2203; 55515497]);
   (5704689200685129054721, 21, [2; 2; 2; 2; 2; 2; 2; 2; 2; 3; 3; 3; 3; 3; 5; 12497; 733803839347])].

Definition poly_x64 : N := 0x1053be9da6e2286c1.
Definition levels_x64 : list (nat * list (N * N)) :=
  [(32%nat, [(641, 0xc4a8d0bf22a30dc2);
     (6700417, 0xe643b7ca708c0608)]);
   (16%nat, [(65537, 0x58b56d0d51309fc8)]);
   (8%nat, [(257, 0x761a27f43b323418)]);
   (4%nat, [(17, 0xea9dcedf4c979a70)]);
   (2%nat, [(5, 0x1)]);
   (1%nat, [(3, 0x1)])].
Definition combs_x64 : list N :=
  [0x1;
   0xcd1956858505de60;
   0x1579cfd1b2159f29;
   0x5742f6c1ab34af8c;
   0xc6d1495f53a87ab5;
   0xfb5c3b52e4070c17;
   0xceffc45b7017a924;
   0xad002a27973d87a7;
   0x6569ed4edea777fd;
   0x6192246b5a57004a;
   0xf4fe2adf8547472a;
   0xdf357e1ae2b9174b;
   0x1c110eacae515db4;
   0x43bb3a36ebb34da0;
   0x4883c7d159af1ba6;
   0xbae36c0a93663b2e;
   0xcf894a851297e423;
   0xe837b77c06792125;
   0xe52164216b045ee2;
   0xcd05542618a5e052;
   0xd4ea685aec21b9b8;
   0xf85f97b9e363b9c;
   0xf58caff2909340c1;
   0xe56ba4909ecb06aa;
   0x39428aedf44d25c2;
   0x83cb84c61080844d;
   0xf634ffa34d6bcd5a;
   0x5e44fd1065864073;
   0x6a9550570aca0d3b;
   0x50204a048338ea96;
   0x8c3f491315dad5e;
   0xab75808b27a87966;
   0x7b1a7fd1a6b5e6ac;
   0x60a6dce080d7bd39;
   0xa2ae93170061dad4;
   0x7f52d3c3eaa8dac7;
   0xc2b0b317cb06ac1a;
   0xaee6fb1777d330a4;
   0x4c6230b64706ea44;
   0xcb8c816555bf6897;
   0xed48fe4b30bcfb09;
   0x4a335f0b8fcd578c;
   0x150b7a9d1b823910;
   0x2006975ea7abd220;
   0x7b6eec81165a8926;
   0x97a6dbc8173ccd13;
   0xf8aac59b01ede338;
   0x8a2a7e3f3e4dbb0b;
   0xb5f65fead03447b6;
   0x530fc9c4034e9e0;
   0xeb29e3773c2cf038;
   0xecd8c93d6d7c4682;
   0xf0ab8bb240f6346b;
   0x52f44f7ed785260b;
   0x10d5fe5d2ec9f1b0;
   0x13ed8bc3aae6d558;
   0x4bd238fd41cf0ab3;
   0xe5492ed51cd27464;
   0x9c41cb8e3b7b1186;
   0x598601adaa9d5dbd;
   0x92cef3437592ee3b;
   0x2295984ccc5d69c3;
   0x1462b1e7cb7b3fbf;
   0x680db60518f97820].

Definition poly_xr128 : N := 0x10008828e513b43d5095b8f76579aa001.
Definition levels_xr128 : list (nat * list (N * N)) :=
  [(64%nat, [(274177, 0x8300c1c766c69e25d0d7083a7bc94593);
     (67280421310721, 0xd7badc69e2abb72c9098eb3809592545)]);
   (32%nat, [(641, 0xade01d016825c7b89ff9880fc378ebe4);
     (6700417, 0x93147927010ca73313a74f8e2dbff15e)]);
   (16%nat, [(65537, 0x19c7f37c933343af3919afdec56834e)]);
   (8%nat, [(257, 0x23ae165e587ba525e44794a23f68ba61)]);
   (4%nat, [(17, 0x28ad2cf3e09d85f0dc40f461d2c2c7d9)]);
   (2%nat, [(5, 0x1)]);
   (1%nat, [(3, 0x1)])].
Definition combs_xr128 : list N :=
  [0x1;
   0x3fd8956a3a216ff1640f5642e09e11e2;
   0x9998246561f65604ea9bed45bf1fe0ce;
   0x4d327f85c2d73d5fff22ce79f537c411;
   0xa97858c4cc7802a260c6c0967b897726;
   0x9033162cbed0e60ca9f57519c9523665;
   0x9cb37a8acbe84ec28c4d8a0b64394c6;
   0xe49408cec0920e38519774adcebabe74;
   0x3e0f9324956a3b5984eaeead500803c0;
   0x7fd2aef4e37bfb3f09727317e4e78ca1;
   0xd1fd62adf919a43e3d495e507c31a070;
   0xe27ddb7a38a92b6cd738f5718e3fdd7f;
   0x4427e093f4516d4a8410c5650a07b1b1;
   0xd1c58291d4e941cb78257983ccf8dee2;
   0x7f81297b7857b164df97036957ff772d;
   0x46dfef18ad152eb93833c108d9ed8154;
   0xd06de3011a9e7c77269218f275d1b438;
   0x35ead6f57e7566a5e2d4a6e71dc992b6;
   0xe20b0942d068645d58cc991750a00d66;
   0x2777be822a2ce0d51fcb2fa0c163e31b;
   0x97677c1bd406cbe0e42269ec069bf7c7;
   0x459917f76f08d037a68333fe76891a81;
   0x176c997ee34030067e4077812cca9adc;
   0xd0b43de526d304dbdd1e8a21537dae49;
   0x8f0449ebc2b4da811b386945ea03c677;
   0x53ef743108616e8aaf2e1c82b1ec4539;
   0xa92d87747051d93466c1e8f0a78c75f5;
   0x857091bbd0bcfdb8a2cdad1c72a1f2a0;
   0x4df3e79363f3a928a75401e26c59e284;
   0x63060829d61cbe14ab1353e569980b7f;
   0xfd546b1368d521ca71954e65e9545524;
   0x5774b26c491c510243d86b2748418004;
   0xb9f17fbaa619176c4a8fce7198adb870;
   0xf3810336a396945b6eec6cdcc5a115fe;
   0x934589a0422b882e027542060df9b5ce;
   0x205b964db1a4c197f7fa6a7234959b96;
   0x97cd7979d55a93d15fc4b7c238d806b2;
   0x72740427cfd9a667eb9bdf61750738cf;
   0x920a3d858a7dec3014858d142d3fb68d;
   0x80f44cfd4770b2b4c6a78364895b3891;
   0xf555eef09574fb6738cc178d87570d88;
   0x3ef8bafeaf56910359610de3c18c24d9;
   0xda0eb5179ba52ce18b9986e5ccf21b37;
   0x56f8d411b7a0a3bd0da4f082ce0cc0ba;
   0xfec83836197e0515554793cd22adf743;
   0xbcf8496dace652eb0cdfe9f44dd23175;
   0x24fc1fced824b5e6ce36893602440f47;
   0x3a2d2fcb0822f99102ff7d269ee0df90;
   0x9ca22164336d1fe3e75020dc2beaaf56;
   0xa9bba963f37ad15374b507bf9337a0b5;
   0xbcab864c9494be4df18265e201420af;
   0x1ee781e15e992a0bea987bc9d0b8c461;
   0xbef77eb62be687320b8e0e5305e2b3b1;
   0x54f8f78fa7808ba2acbcc35d306ea6c0;
   0x2c82172d1ae9d7eefb96cc19a2456d6b;
   0x4c315272ae87dca1f5fb00280b87d9f8;
   0x770d705af53e7d6e494ae66883d5a41d;
   0xca512c975e2e3a62ded4423ec8a780e2;
   0x7122f1f2ba12b6faa0a72e1c0b1e208a;
   0x1cfc17ce4a12d85c533bccca1158b723;
   0xba58ddb782c1865c9c1c1a9d271e38;
   0x5a3b5d9a2fe60123ac635dadd5aa9506;
   0x68c4c371352febcce386141b16ea0649;
   0xc2e459d428d16c0b9cba9477d19b82a2;
   0xc78665b2c9c7ccaa0931f319deccb33a;
   0x962b6e35968c795eb7359fb893a5637e;
   0x4d0aa69871431b745d56de86c7148a34;
   0xf8a37582a894383ae4418f7cc673d41;
   0x8f81ab0d7d81d636336cc0674da58664;
   0x21b4537f7d4318ec78d11b50565363da;
   0x7761022118d41409100e7f9242e9be54;
   0xcf2e51f8e41c26b9707b413e6a9a7e76;
   0x62f72cf9c666b0efa1ad09959c5edff8;
   0x6122f6fb2b0b112be0445798637065e;
   0x985fa67dd80c60293c73ff537acd7a97;
   0xf250105ce07b4ba72cc5c048947510b4;
   0xfc15c2f1efc24a22bf29e84166bb2e8;
   0x68fbc1c51b983312094551885db61285;
   0xb68076fe95f4e696517802586aadfc6b;
   0x86a188212630d609dfcdc701b68d4d1c;
   0xaac71479502401c4baf41334b67a32fc;
   0xaa92cacd01438fcecac9e7add6c2d0da;
   0xf08128e352753c719ad9dde9d1450fd;
   0xc0bd48af1fcb10b991957e1a6658346;
   0x68072147f0246880ca2c67b1bc005c66;
   0x9be1720691e658a8a44100bf7bad523b;
   0x8516d7dea7cfcb1f9df6f4a10625cd7f;
   0xcda2aa00a2c278135c6134b21c0dc181;
   0xc1555959db025570e890792bfff691dc;
   0x8736e1c7d941a7c991d958e653bac563;
   0x2ccc9a013c68dd2c8de03c649c4b35a2;
   0xa07100c576dc957d32c5743b130c090;
   0x928c198f5e9d4b5b263ec170c565eb5c;
   0x497a73ee05dcfbc5fd4d324bf1af581f;
   0x6b1121c2cd3c6bd788f3efd213bbb391;
   0x716c1b551e5fbf52b925eb334d826cf8;
   0x27386d0f41b8831ea877afef28a3a7e;
   0x96a9957d0c81896a01864dc3a1f2d58f;
   0xabd4f1591f22d3535226d5080876a58b;
   0xae21dcedbc300c535aca4bac17f49007;
   0x979055170e9bf312718ab9cf764b89ae;
   0x5f69aaead82aa6f63daa71b79fd2724c;
   0x266c1d7a3877b83ce1eb40a28d87e5a9;
   0xe1866017531804b108fac95f6196f9c0;
   0x7551afb7bde95a8dbc61d036ac9a5d88;
   0x2114f04bb24626fbeb66a6c2b1c32c28;
   0x96c2a7252b5e07e3fed47047137deb50;
   0xf065aa947e569cf8769850051f5a72b2;
   0xaa7414547f4204446524f3861f694cd0;
   0x74e5833cdb138007dc8894c382b67a47;
   0x2019841a8e7bf790da54e5665965c524;
   0x48672bac686bfe8d2a34c77079bd80aa;
   0x83a5e8f679d8024f2525578a83eeaeb6;
   0x1656bf5eaa5a8d2674a1f98f4a8936e5;
   0x6334093235c599fbc1bc89761e0cf097;
   0xefdd2d1b6a501e5705a9c6ca3c6a7ade;
   0x1ce0cfb8f953907dcd2bab5aab2c3b69;
   0x3c1a36c74df42b4710ae7f9cd612c9b1;
   0x9346c2d78e5faeb610f08a16227786fd;
   0x6f5ea5fef80d4bfd69e2e0ac67711952;
   0x1f3b81da78714355da03ea11b93d7e01;
   0xd0a447ede11489302fbe114d464349b9;
   0x277553d22684d40cc16297a34e2639;
   0x8f4389c8779909dc58739ca15a2416ae;
   0xcb0da797751c059caa20ef57b5a7b5db;
   0xf8f39726b0ffc8d2fb8f03e9c5234846;
   0x63728fce448ff3cfdca62fdb808f4b27;
   0x2aba066193254f8cf69816dc53e80586].

Definition poly_xs128 : N := 0x100fc65a2006254b11b489db6de18fc01.
Definition levels_xs128 : list (nat * list (N * N)) :=
  [(64%nat, [(274177, 0xe30d8b1d103b9df823e824399d40af5a);
     (67280421310721, 0x6ce8fb3de875e75b27d35f22bc3de8e0)]);
   (32%nat, [(641, 0x38334bfa48b03ca4aec0e36e6d9ed59e);
     (6700417, 0x85fe07f08179f2792959368c98648193)]);
   (16%nat, [(65537, 0xb3b38d536aa27e734dc8e788e87003da)]);
   (8%nat, [(257, 0x4db5b47a4f9815c7fc3823ddf7af6c2c)]);
   (4%nat, [(17, 0x188ce7ea029c4bf6dded83847a711394)]);
   (2%nat, [(5, 0x1)]);
   (1%nat, [(3, 0x1)])].
Definition combs_xs128 : list N :=
  [0x1;
   0xa02531d096ba73f912037800f76b8286;
   0x282341fd666963befcf03ebce35138ee;
   0x5a18bb798b0f9b3283445b89df7f7264;
   0xd59c5b02ce590d79cef05c27d1721abf;
   0xf3f9b49d830bb8e61f1bc5f1e858edf0;
   0xc426bb78249ef6bced2a1d0202ac48c4;
   0x641a4180a21de2fba0d1b43686855d74;
   0xf650c1bd3669430b5a238fcaaa57bfa7;
   0x72b380652d14f19ff2134023cf841fbf;
   0x8244cec073eb8949b49e743cb9d761ea;
   0x1e6d2bdbd7ee22ea7b7b60c82d248851;
   0x67d625858faa3eb56b038d2a75137f24;
   0xb861f674b79746a00241951355b5a4eb;
   0xa1915d1fba087ba270c1ee7eaa64c2a8;
   0x9fafca8f9a880d64642d0062358caa6c;
   0x542def4a0efdfdb948c05ab1989ec090;
   0x4107e163da4ba91d4002fd571b42b4a5;
   0x8422319c956a13512fbbdff67e5daf90;
   0xfff31c2c020713499f29158223ba102d;
   0x7d1558e0d25e86137b88173d4cb6c262;
   0x3e1a8d22f9c1121fabbdd56f959a5b51;
   0xeab484d4b194776b96710c48d61c9fdd;
   0xab06b76918d5ef9974a38802cd88ad27;
   0x588069f998ea1dcf7395c2c84e952b22;
   0x878570a85a4477142eb21ec90cc6c158;
   0xdebfa5ae9b2402c90c834495cf56f3b7;
   0x5b333e22f1a25aa622700e9558dd1109;
   0x9727b413d7fec4c64c7444d98293e1d5;
   0xb6ea294defc8a4aa22b9a74ea3d0d3e4;
   0xd4c58fa726cec144316a468ac2dd5456;
   0x5c681b1209e48f2f9cf5f304d5c92d78;
   0x807e32d100312a588da44edb6f0c7e02;
   0x10a49eeb664b8abfb64fd1b74b7a384e;
   0x445723047fe676a287986227b70aedab;
   0x993d2b4fd398fbfc472a9ad751415dfa;
   0x4174ccf7fbcde2a6ec744531fb49ba20;
   0x9ef3d6d7c7f0f90e2af2f4adfa855119;
   0xeaa24eee5b10c296b789a933da1649eb;
   0xfa39a3c11535348a91cbb2764e481452;
   0x170bb4d7f7b5597a8fba0b1db090229c;
   0x5c40f229cc92b1a8908b6e8d17c64ea1;
   0x45579f42de408286a83b4fd1f15d8f20;
   0xb392f08b441a7ef946ef3f2f23d72a8a;
   0xfc4759c9d88162306386dcc1d0af41da;
   0xac7140a034b650f9934f33c2b0a519a2;
   0x13167112a9769e24c2abb674dfe31805;
   0x707415faf83648cbe1041d43afc7fdef;
   0x824d29311a8505ae35e0983bfd72e168;
   0x22f200a75983acecada0caded4284d18;
   0x4aa91e5560037bbbd3e2cda11d8d74e9;
   0x9de13d055ed1de672a72a8e7bdaa4d;
   0xc4a01db1cd924f2f4ad425e43f36e5f5;
   0xe3466e058f5387680f010eb38ef5e50a;
   0x20b11cb03bb1ab8b71364dd87623f255;
   0x830c6215bd925617c5fa07694cc18edc;
   0x9d40e70ffda135795ee164f4ba60c3d5;
   0x4c343ca699c881135175af4041f61e1d;
   0x52a2cef97b897a1f09abf80cc8121cb4;
   0x1b81d1859ba4b247d87c54bb72d8d496;
   0xe55ee55d44519506283e78b2757ab141;
   0x365d239f28174fb04f67008cc851323b;
   0xc315bd3fde98b69b612933e63accfe86;
   0x96e43bad173b59c8f7911f8bc176cc4c;
   0x807e32d100312a588da44edb6f0c7e01;
   0xf037a938dde74a059b02c4008cde43c5;
   0x3c32e103d55dd261828821e292f9a499;
   0x7714e6c54e8856abc2e6764d30c0cb56;
   0x3f2c4452a944a19da42c3cef56c769e0;
   0x8a056ed3428e6495109627091c749b08;
   0xa635e6c436d18de29bbf138303fa6ca6;
   0x56176140f313138670b96e2dc5c7f3ce;
   0xd0693b2ad6cc8d67a9606f490701e74;
   0xcb947286bbafa30886beaee9474a6e60;
   0xc366a9a04a1e4ded6ed14e22e53cd11f;
   0x91258ce73c2819c7cb629e7754bab279;
   0x543d3747487f21efde824bbf4f9ac0b6;
   0x642f3f9fec6dcfa88ec511419063089e;
   0xf159f390670c467348a11941ff56a3fc;
   0xd0782fc857cc0bd6563b80532f4aff5a;
   0x7e3b18ef09830365eca077e954d1a0d8;
   0xe1fa2303375f57cb6da7cd27f9ef90f7;
   0xc6332952dfdf1af9b866300d41737858;
   0x74a0eb0335b0b5dd19d1985d6b663b;
   0x439ff490bb71c51ac64c1ca3eaeda353;
   0xa169f9628510b148f3c77103305b08f9;
   0x1f90f46fe96f6686d0edc4b7d21eae33;
   0x7efbde0c948e320d435602d8c44085b4;
   0x74c05d05549f1328ca5f23ac69dfbeb3;
   0xc447c8fc77664c9e39eb11ad8aa5a1f4;
   0x319e45a8d68729f50766a80447f1f46c;
   0xf6d493e289425dadbeec47049bbfe78d;
   0x5cca5ccb3c308cfde7ea286e2cd66f3f;
   0xed9f3deb182cf6ff33e574e9f238ba16;
   0xbea74874b5a9a1e629df65cfa3b3fe7d;
   0x725c169b0d16c8b8528f0a86bf2dbbc4;
   0xa58b12faddfe6ef088293ec27b2f7633;
   0xf93bb79ff050434e57a4d0a6f35532e6;
   0x2eee74f5de01411021e51c0fc6d2c242;
   0xffbd254b9e6b16f58bfef2635e2c935c;
   0x53d93543f01df421dd2cef09cedce37f;
   0x2958f6a517bf8ce8167f4c809760d66b;
   0x77b14cac5d4f8c6e4af4f358cfb46cb3;
   0xb838fe561b6e2f7d2f7e50b9c304ce17;
   0xec0d4dec97f1747af310a6dbfb2385a9;
   0x91072d4545054e5889598f165390abdd;
   0xe7b8324730cb31c79f0e4e2e484a85ad;
   0x4bea4057bb9e89500b1ae03228461066;
   0x52ae3b4d7678a1d4a60244fbcfd91b4b;
   0x75ffa816da6be19ebf3a06a36ef4bc6a;
   0xa59e944cb7bbe2688ff122f9bd3ea8dd;
   0x722e31852e62e53a74a982344ccbdc41;
   0xa14859d7ac74a13633e55cf0c6994126;
   0x2b4422209e01ee6078c3fbb39dc491a2;
   0x1497d88e94a3e8b0e56588f3de943d5b;
   0x2eb63fc619e9ff4fa74a5fcb820848f4;
   0x5041bf4da77c399ffbe8c3b9b6bdb404;
   0x4dc8cfec121fbe7791ca75d6f75a96b1;
   0x89b9ab74a0d3304a6d4ea0ac7da8a89d;
   0xc28a531f635b7d1c270704ddeaa149b2;
   0x539ea6590340859d7c359855885cdc3f;
   0xea501024d51debc2746b363b0e016f13;
   0x7bf3a985c64dc7108d7e040aac1b12ee;
   0x164139475676eb6434427ee6cbb4bedd;
   0x178fa522e64875ddb1850a3020cb97e1;
   0xad0d8081bc2dc230e570ce11c375d526;
   0xa29f63a031d4edd6d1bdaa1527aa81c5;
   0xdd96267b9ca6f52c8c59904e21cdaa6a].

Definition poly_xs256 : N := 0x10003c03c3f3ecb1904b4edcf26259f850280002bcefd1a5e9d116f2bb0f0f001.
Definition levels_xs256 : list (nat * list (N * N)) :=
  [(128%nat, [(59649589127497217, 0x140c674538170fa3c49332c2d407d472bd1a516861e1461c446ec66738a2fca);
     (5704689200685129054721, 0x86339d851be64761b82c6b8e9fa290d1717d443bb5559921f6b409797b140ecf)]);
   (64%nat, [(274177, 0x13a38369886b3036e9075f7f72f8d07b6383b19d475d1ec5cfcc101d2ad09880);
     (67280421310721, 0x15224a27d010505f801cc539a1fa53a3bf1cb88d48b7193e295a3254faa3e99e)]);
   (32%nat, [(641, 0x2b6512cfc946e9d97d173fac34151f1c90d1b20cdce8921dbd3f4d9a0b8547ee);
     (6700417, 0x9cd834fef1652aa8e917486b2c7e5804988b46bd42ad1bd30c34e3a9e8885d4d)]);
   (16%nat, [(65537, 0x6a6cb4c10e02448be990f6b00e348068df37264777d1a291261e039f16fd2cc0)]);
   (8%nat, [(257, 0x3335cfcf45dd4450a7d2006cac1e3ee4e90153bad2ecc187d6e2384c6a7e9580)]);
   (4%nat, [(17, 0x33ae16cf514a81fed67278cd5c1a9cc3e6d5ea83533b32b8bf22455737966250)]);
   (2%nat, [(5, 0x1)]);
   (1%nat, [(3, 0x1)])].
Definition combs_xs256 : list N :=
  [0x1;
   0xf2c9adf7af0df9f465ab73f77cd3a2ef3c25140c5c9c3038e1dedd95ca1747bb;
   0xb460444ac625d79b203cd6b025af2f4ac2a3bb3949b9b88bb714d51dc513ff9;
   0x3551458e3890805b945c1b47157b3a5e69b3afa458ab4f609978da00617ff5df;
   0xdf47767c553f3001a1d225b497038b0a8296cd3a1e5e73c9d37648a6a077762c;
   0x919955f819cf734aae74a0c3528773bf594698cbe24c201bf75bb029e5370af6;
   0x4f360160b8ba7f5839a35309544b938097aa4026f3c3246637d527114e9e5c03;
   0x878e684570dd1a2fb420385235f699a998ad6fbb19907ff9f2e21b93d5c0bb00;
   0x877ae21c02c2f0d8f023f169078d5ba155bf47e5d123c6966f8bfa66bbe07f2;
   0x8443be2e129ae113b575190e092eda0c4bb3d7964eac24622d80c1e9a8aa51f3;
   0xac86331b906f1879278675f2f91c33f2d73e6d9fcc56dc6d5524f5ae275f3594;
   0x8c7bd673189f29a00644c1bc411593687c063b2b45b0e0377787b22ce9a70db6;
   0x8b48e6dc3ee323f718ef9aeba1ebda63ee156c10a348d0b758e9ccb2c611da0f;
   0x3c0983725f6e0a82965f304d65de789c2c8f887cb776dbdb9298aadf12472bf2;
   0xce2bb4c57d9bd28a735e07cef04e43c8fa63333b1f5e002019a9a8e232b213e;
   0x48f60e0a500cd7ea18f2b39ee60290def1e935bdc1e2ffeb161296e849eab201;
   0x9214069e88fd4d32d92800681171d7541cda6a0b12e646193d5c2497d0a5f6af;
   0xf765117ab7bdca5917e70b6aebd99d35693efad2fb24dec4f9ef5c4b4297aafc;
   0xec48e053e19f460ef691f5491ccc7ca8d85501b197b93a9ad5ffa09be83e4edb;
   0x81478d3e7da97a2d9c785136f3f04442aef9a71b507f20b6e47cca56aa7a9e45;
   0x96d538ee43b0728a2a28e01c5b87169df7aebae792938ce632a5976409e10449;
   0x52e56790d730b665e764f0de28c69d6382056c0236744ff6502769bd863b017;
   0x59775805a2f1a9e797c407f95007f2e605a4f1a6154310e9218c028ab2d984;
   0x55759818f8a22dc5c56d946938bbef5c0ce147d9cb4de6d20c06b110e316b421;
   0xb7e0cf5459a9150148908641c2e7c7d9f537dc2a55eb94c88e9c9f82d5c01a0b;
   0x3a74ea63bdaf892e80beaa8c5383564fa427c620cf849a7398b05dc2f0cc9f5a;
   0x1f7e55eca1bd520677be006d8e34b9665fb54310b7773899b6e4e17452361fb6;
   0xe23a606b789ae0b17e3198ec56ed9af4f993df6acf0de2a732c2827db3c507b6;
   0xfac451a8560880a12c127103ebaee67070e91848508324138cf300c012cbfd02;
   0x845ed8a3a86fa7347123109ca8d5472bc280f77498b87365a1a9c29fa49d9243;
   0xde2e2570cac9424f5150daa66b71f2e901b7dd57563489b91f583c2ca02be3d3;
   0xe95777bc2e70a59eb57fbbfd9f6292bbd2792aa0670378e213dedbbd61139002;
   0x5691044a4901cbd416aa594bfce5e38517602b0c5be0e539ed60f057a9c9bdf6;
   0x1f62a7cd1b67f0a4cb1051648c6d9b00c94489d5c39ccfd026a76adba409a306;
   0x5bf0110a1b2e33841ac5015891119a4b65fb0b5dc079a7740f6392847d2ce324;
   0xa9cefbb2398fde751a075e9c8d033999d6ab7cb1cf3dbf4733eaf5f8a952c432;
   0x8197a7371801283f05095cfacbdbec99116e83b0893f4bb9c585577028ee41a9;
   0xc3cfb69a0840156fc1ad4d65fb58a271fe2d5f79346d7c065a6b9b9c74f00926;
   0x442fa7f8fec3fde23f315234282ac158ae5cd073d8054526ee6c5139d5e7ff7d;
   0xc5ccfa104c4ea917c8c3bc7bdde4f53bd803da661447c47bef897c5fca45ede6;
   0x3541748facd1b46868bed551f2ab30fdeeecf5b3515237de78b96d75f6344bde;
   0xd90a7d792d282235eff7a1722f49a007ed616b462ebb003479403bb048fd8d83;
   0x934c81c6d9b632a9f3dd52ad03800717900ca6c845043fbcec1de38eb7216bb6;
   0x1ffb87dd592a5db160f711ad7a70cbeb3191b42b49c4613eb55dad8aaa6c7531;
   0xdf151fadca38f28b46d1e95bbd70287e44b7c6dd26a4d1c230ad372015834ff9;
   0x784d601d889e9508ab04072506a8b174f5278c34e9430c94aa7b06e0af15bc30;
   0xece66530c6962977860b3d87e954b8dcf4a98d21e525e3dc53b9f0dbcbb0f508;
   0x110d6660856a26f51ab823bd6fd53955fd362620f6c3b74d20c0f82e2faf52c9;
   0x13731e8f7e052045c917769561b48b6cc92c593c3dcbf9d93d90bd5c686b1033;
   0xe13618d737a989ea1ee7a32ea1e8b4d21ce38f67eeecc1f8a114a8ea5551277f;
   0xe3b5d2841d30ddf22e6c3ccdce4b63452df24aac7dc3004ef9e7424484c45807;
   0xb84cb22cfc89e93a2ee3286f22eba23fd993cfb863226cf8ce5a2745bb4be98b;
   0xdd1605839d4476f956b883a3c7ff63a33cf08321c5410af1b4fc494cc05e5350;
   0xc1a8e347ef8a8d9eb3a06220e9608f49990082b39b08383d853d019d7000d8d4;
   0xcbd1a53b7d01d3f3d5e6b80f7790c995e0bb7574018ea3980727bfa7a6933345;
   0x2e430dcc18c87e7b62625db74347e6bda17fd27d64485c93bb902e31f17dfba3;
   0xd356e8ce367ae60a4e10de3b84f7807cb82d58f851fe8a173edb643cfbf8051d;
   0x1318159d212269000ab2524aa69d2134db16949c8b524d144e31b504ac97fe56;
   0x4eac4963c14804e3302b6779d28ac9ecba2d02f1997e144a3be429067fad8bb7;
   0x26fea1baeb2a4023493f5e18c459a0f35cb2afa2760388d7bd7bca9144bf07f5;
   0xd20eda578f7681dc663b60417732c050cc72a09bfd7b2b94c974f582f5d45807;
   0xe9286a960c0eb016907539bbe66597ec7ae8656f4bea496075dac159d9a2818d;
   0x884c7d752f75136f2b49a9de29a5c44ef244495bffad8a8584b97f12063c4901;
   0xb2dea88091ac86cdf10ab9187ad2975c5734fdd4d83f34abef97db4e9a9ccb91;
   0x8001e01e1f9f658c825a76e79312cfc281400015e77e8d2f4e88b795d8787802;
   0x1cf5ad36a93ca1877f6dc53df2f9c4ee6598a220bef5ef1c60cb0d5f19ada4aa;
   0x932eeab5116af1c33f5c0a84168a53518f016aab040477fa65d28b9e8ef2980e;
   0xf00bc9c572f6251660cc4dca3359265166fe888f7a7db45e30c56e952a386951;
   0xd12e97fabfdf331a97f9b47c43a34c1546e6fcc2fd6ec429d246da35a025a74f;
   0x6bfdc130004794290f67fc282a68c1241cae7dd9fb434a64880bd76c88056096;
   0x39f6e26f32b6a490edcd797191a02103e5c1a04b791957d03ac86a3fe20bee07;
   0x4cd8249466ea7251b6e481425733e002ff8c68807115da5181a455c5f191db81;
   0x14d48b53604e499dd98561a668cdc1a9201a12c394ad66e67e8d209fe2a30c1d;
   0xcaa483690cd91c3b36be25b3a3fd8959317e44d9938dcd849e583b99ed89031e;
   0xf4cbf86d7d777d7d87b3cd3a893e199c763eddbb07bccb29dcafea0ede101e3;
   0x5ec987e3824f0c890b1f0e69848470e1c48f6be8e744aa2bc9ddd264176d6db6;
   0xd3379ef4421678803b46638a261509b1a8e06e173eb65e44ce3ea78287a3d118;
   0x6617c75d916b10446791f8bc7953cd764f58d4c73556da5aec7d00d1adadc21d;
   0x1fb42b3e845fa4c51df130c7a98bba67589f7ffebb11300503f8785b57c3d2e3;
   0x3596fb0f9780a1adbfc648152c16a6101a66f1b0844a0d0ce9a4d1316f584502;
   0xed202e5075259269582a9bcc9f6c1545b419e12d853c384f378f83da21919e08;
   0x957b6a740b9bba87a0897eaf847a6b75646288e74526c8b51238799894947087;
   0x2eb790ac1350818f10858b1e02c997425f408385cd2d7f09129949c44ceb32da;
   0xc22efcc1e527e7d8702211de2b2ffae3894f9d8521424647695e29386940fba9;
   0xe6c2cd89861972c4c7ab2b1e2ffaf632974a2882c5ed48ceaf803dc47fba02b7;
   0x88ca67d083c0f6f3118dcf7aa74c2885ed1086f5b003a6ae360d61ef848ec025;
   0x9e551c09949b873ce46a0c0e080c1cbf099b9b9f2027a9a6d3de04503cdfca;
   0x501c23928a28e5ea3794017e38e6d49ef22c4a9443b3e250868d3c6fde4a52;
   0xb433d920bf270e17b387d48bd18b3c189334567fa8a1748489eea87aa9e8b112;
   0x69d3a1f6a588d6ca4122005e8ec707b89a5c6f51f8cb79defd38956499ff7119;
   0x3143812f13a40d0fd4a300eddb732e7f90b027a93555ed7fb6bbb2528d7730b7;
   0xb56a30df72467a2347cf1061a08867168d6e514b37602e4361f52aee0e987cb6;
   0x88e94bb8b82b8a0bca99374904af205ddb26bc9f47bac070428eeecb9c02f484;
   0xca90fd34a44933675c39325fb0f77d85e781956d54af4808401ebccef3fd65a6;
   0x5349787bd0578b2c8ce74337566c4ce10074543b2ef0c0df6285bef178cabe4e;
   0xa606949a74e7d2eb34f447cad751f3af4f4ec03b337a57ebb343b58fc25e1804;
   0x866a8ab1b683724226019e3207b936c8a570439e9a31b8ef2c7198848777a517;
   0x31741c7cbb7c191bf3a88a7b5eedfb81f62b574166f7f8485e1d60da9a17978f;
   0x9a182a913bcb7eca38e8821d6aabf9b3790b931560cf9d521976ec4ac4cfb7da;
   0x7794a8150e698c9bdb9ffb87aa2707a44834710b718bb736331fe26b6fc1a7c;
   0xc3e6bdd79ca36af40e788ca0476d7f3929aa46877f62a5deba51dde62d232b87;
   0xe67b76452b9eeb716738d1b62d388a5e01cc11653c115c5104f395dd6368e6de;
   0x2a497c139d7960b9e3a07b95d7522ddf8ad7c8cbbb76a5f1e5663d7a99447944;
   0xe97c49148184cdbd71524b05731e0f6f5e8659d4ec517094b5c729bbc159dd3e;
   0x702253588fcbb2e4e522c00b1c03f9852aaf91bf0a0d7453cd2e6c511772b253;
   0x5e93e46cec65fbe4aefa0975fc00c04bafb2631163a817031db9b206dd0d55c6;
   0x6f3c8352e089b71e1ae0e1c3a0e59221ea9f1edf66777af9332459f1852292b6;
   0xb00b2c4a015ef036f3cfdd6bdacb3de17aabb256d0147fcd7e9d3a45d996a8fa;
   0x51a290af51cc32c6a825bd32116f148428f46eeaf7985c14aa952d6e494fb00f;
   0xccbc7035d5726095038a0dd88e053a5390dcde73a6279f6301cb8eb109a1a678;
   0xafbc38c5d1598d4dcba708030026b2529187dcf8f6242c0813be76f1c2496095;
   0xaa9d9fef57fe3b1c3a762043fb5221c385b75f44719838139f693bde90f174f6;
   0xaf5e52475c97b525f4ff2087e0a19cad778e9ef3820c8271ab6193833c9bd07f;
   0x32f51de7d42679b4b4520ce2a612638ab476d942032c747cc13add1fe8825540;
   0x36b36c6814587b88cd00fcd5ce84276f4eddb030ece417cb5ca4fd152362140c;
   0xacbd1d6da7f6887ccc595fc16195c527dc2e7892de5678fc28008597c3baafd2;
   0xd4a4c9facb141d970299ab594a24e912e51947f8a6df8ac52e97d91450637f09;
   0xe386771017ee96eb3a24189e8054c6b2fc0144153569763b55f5ecdfe8f12dc3;
   0x7249b8c96422e08bc7d0b731e1dea7a6b2eb506c2a59818dde457822f6e77729;
   0xcba67d60226ba647f7afe352b43ef1e713004dd19dca1a41e460fceec23d7297;
   0x4f0485d9576911843dc748427ea39080af8c1db2a281c6543142a2d9e28480b5;
   0x2fbc21f4d2d5e680103d8db01e74d2f3dba66377530dbca2bb7bb08b0f640387;
   0x3a0f56687dab6e3b7a190ba8df4238eda80c848e193daf9e24b2f11a18f5aab5;
   0xde83f3b6bc5ec5dbb4bb65da798d5e5d967c0880307858ebeac2c7fff359f410;
   0x4d18f9a6f9f7edc37985eb8ae0cbb0ce7d1c11442dc8559225ca497af9ca140c;
   0x26c6c0453ebb96b3ee3e74828aceb4694b64f8571ba2210102c13aa1371ccbdd;
   0xd4bce472e9f101fc45d91c7bf2ae3afd1e6ab624290e473818b7991367ee3e83;
   0xbcd025634b2ee0689c7eb5947dfb35510633857df5e26473fb7d838410ff7aeb;
   0x8001e01e1f9f658c825a76e79312cfc281400015e77e8d2f4e88b795d8787801;
   0xbac9b1267146082d524bceb51a8bc5a23779e1f95aca50bdfb904caf7649c66;
   0x8ee4e678e5cc1649e9585d391065444c7b7f267fb9a8db63a8415c6cea01d805;
   0xaff807573b47a5fadc2860030cd468b3dc2a7863938065ff9b4c009589b87730;
   0xb0e4cd427fa0a801713b376edc824e8fc3ddaba711714a2d3acd6cf5f04ccd3a;
   0xd955ff041528caeff94ef0a2fbc4ca60f5e5d4ae136a30160cf6683d17ac8f8d;
   0xe8ace1cefb782578a7288c6a6d7c95825d3f60206d5c3b7a62b7030c31a90a02;
   0xc4495c67c8b397386e30247b2f0dd57d54fbd866955840050b93165a3f20e680;
   0xc4c7931203a388b4883209dd844bf671ff60e41739b225dd584e0755e61040b;
   0x466381270448f416ed95e36e9eab78c8ef2a3c488e84bb7c75c81688a487010a;
   0xfac52a9658589445b4454f0b85922a0bbca15b502a7db25bffb68f7934f0af5e;
   0xca463d4a94d0bd700566a162619f5adc420526bee768902ccc446b3a9d748b6d;
   0x4eed75ac3e0dd78016c22179e20cf890985fda0d159235c3ba159d7e7d614f08;
   0x220d42cb70d90fc3dd70a86bd73144d23ac84c42eccdb6365bd4ffb09b64be0b;
   0xa93e6ea7c3563bcf4af104298869622c8752aaa690f10030157d7c932beb1a1;
   0xec8ce9116795d99396d19cb606111773085daf76c66d0d31d3936a09b5679301;
   0x5b1fe5cfd31c8e2737e676bb8adbf33c93f75f1b7cebe83aed7a8149e08f75f8;
   0x8cd799c7ec632f759c148edf9e3553afdda187bb86b6b1a68518f26ee3dc7f82;
   0x1a6d70640ecf80850f83790a01b88d3e353f817cbb1b2af8f188c743c45911b6;
   0x41e5abbf5ce2a2b7d01e0f4a191aa9a178c574831f3e3dc2d8ca18e8273fa967;
   0x5dbe44877df72e43bd66e6f5e55652118d39e781bca4c7ba657feb43d569fe6d;
   0x87b89d5b9455eb59f3171e6c80d892ffa5707db5d5aa6baf990bfa43ec2a101c;
   0x75ccf40773897d145c260405f8040b95077689751fe2989db14a03cfebb546;
   0xffceb40a9b6c5eaba58128ba37f4d7308bd1e420c9959894448d5e0d4ae59631;
   0x6c1148e06ae2fa0d6e82b386b086ebf78eec322a9860d383875a67d667586f0e;
   0x274e9f5263784db9c0e1ffca7a42fd6876342530a846d74a54e8732388aad0f7;
   0x10c17f1af163fb054c61005b492ee5d5706fe298eccca4d56d9691ce7b2d106d;
   0x9327505ec4d790e9c129549a7d9b578e855a30dfa88b13f4aba3c3436a27846d;
   0x87a6797c7d0cc0f1ba1b49821e799548489d946c78c2b61a4a8a80a01bae0383;
   0x467054ec63c71122cbe8ee356fad2b7ca2808cdb339ac7f83ff59445aeab2362;
   0x3138d7d6b03286e47ba2c112cddbc45f002c33e91a50404ade7c95af28466a3a;
   0x9dfccc623948f751efc0660350d3dbe63b45bff05482c4931a31b663d19a5803;
   0x7dd9866f6d812e3e1dff75ee029712479cd03e8a761097a51bd0887c7d2d630d;
   0x10d3f42b96d408f6ae9879d6ca5b5680ade6cd3f2252a83835f4dfb6760d7285;
   0x7608198f16b92a4617a781f4d999576ed7068ef3204574ce08d25bc643ba92b6;
   0xfd29866b2548314f9704f1d2cb82a5553dfec2e928a360e4aa1f8f04fdfba62b;
   0x415d94b28b9ed9ac05d784603d24d5171899c27d2ade634a69cf4b5de4e1197d;
   0xa2286dd70c601fd8217bebd706f4f349013bf0c5ae5bc205775e56524e880db5;
   0xe639941a9e3d669fa2f38dc9af2d6e367832b85fd3796a9ad7d2ce30e76c78c3;
   0xa72a87186a69fd9c2ca2624633168fa6340237551e642646184dc2702f671b15;
   0x2fe1cec87ab96e5c5ce1bff90bfea883199a8f6af9fb2c3144e5dbcf0d2e6e31;
   0x358ea3dba42356a39a56072cabffbfc69a91def0de980d010b6891fdb4fb3342;
   0xdaeac125b56d2bfd0a33fbfb8240049c580af5ac678620629a131249ecb1de6d;
   0x9007a42dea2016e552d6ef9c545a61dc28196e2b0a58dc8ea17bccda272237a9;
   0x309e706530bbee4267e36b11f0daf383e7ac25a65288340c66731b25c73a9005;
   0x446bd0134cd1df8cfe8604b785fce9ce8fb44a2e9de28adeff468590f89f6228;
   0x9a9557a8a5dd3dcc450ea3441dfee4b28efd4bb117b712327a6508b62e688f8c;
   0x998a354ed840500315be44844b2d6a3d82ed35256adce1c4fe2833ace00083ad;
   0x9acb71d6de98d5ebafc6bb38427c01182cfa75b7c450881aedd054678426e02a;
   0x11acf4a2b3e2289393ce045e620e217993d248c1fee42c2bbf164b0aa781ccc0;
   0x126edbd80c37d687bb00544cba7c1d253a4b6fefa45c0d46cb9c54f31ede0c04;
   0x646b0b249d52782bbbc8cabf208cbce2b41a2871b5cdd7abe7ff8372be96654e;
   0xb39d074253e64d85fde4c2722400d272a288c2b127e18f896e826deaa0717af8;
   0xa17c92e4184fcb51ea7053309dd0c8ed5580c3ea568c242347a38153c800b4be;
   0x2e3897b8dc1e5f86bd4f92ef5f4a629d91a6cfdbe6377f7b4a3cd7e1ada2d2e7;
   0xb9636b340b3324ca5109058b71f6da21f0803b563112fff528d08ebcd1bb7e72;
   0x3afc7cb732d8f083eb42c7c1d59e8f80657bf4919e7f4233ef3e61b75e7c7f93;
   0x1a941f53b1b35d800feb7b6ff5d3b1aeb69dded2cefb6b9e69296f86fadc017d;
   0xe9fb8dcc3e73631e2a64a222a8dd62d8667b839cb2bf9340689e8a109803366c;
   0xb5801179812005be6ffa87f33567bf4873abf866aa7cc1932d4e984c3e98fc0f;
   0x3b0857625752a4bed77ca6865fb96fba2b0bf0c3e4b83371e34638d657460c04;
   0x1dbdbfc315968d915a15d381864593d8c6dc57cd0961e0ff01bf1660ed0bb94b;
   0x4c6ba3d1a750ff543cb70bd6ae65e9ab0a266de3e705c2e8086d770edd5a1581;
   0x6bb01cdec6e5a0278bd59373d4a91330fdee832b535e23d156d4817c0faad659;
   0x866adcf2e66140f00d7d0afb958101f42f30c3c2d79a936bab40956845aa7bc2;
   0x1fb9c39ffac53106471a9b260b5960064dcb338ebc028dee286ae8517757fe24;
   0x7a4aaa2e2831bdf5caa77e848250e1eb75a365aaeee7dfc975d675b0026c78ba;
   0xa6d10f647576a0bc8e191855d85e9c71131d3f0819110dac1a182c7e5590a2cf;
   0x7a6472b435853ab7a7d49793b10c6ca2b66dbc6c8e721ec5b968fd9b5e5a04e6;
   0x5e39c7d203dd9a8302fa113e3da0a3b3d87af871bc6d1e1a82d699db2bf20a7e;
   0x5aeac95de65bd98d49eb5194428a5a1a52c9827ea15f307205eaf026b67cd21c;
   0xdcbd72b07f7153f3588deec7b7fbaa3ac67c45c0e2d1d397cc53fb59e28d79c6;
   0xd198153e1d54b8fd5372e90618a5fc98b0d093a0ad8be306bbf8941d7a7e268;
   0x27979d4eed9b0a28898bc1a04586f0dd90b697eccb53f4032937d927fea372a7;
   0x4179486ade570448d4d208f74217ba92667f0359bc03a31186fe60512e024324;
   0xb27f98b262718f39d1c75b7bdae84df783c6143f4ff9291c46fecc93c974a2ac;
   0x99947bf852fecc514311255582c918d72dd01f713820129ab6db3e611327a825;
   0xcd81af061e58be98ebd2128cb005062069a2a745c5ab1a7dbbf57dfb37206e0e;
   0x5e905890dad40d0f64e99ba5d5278aa7e9721ff9ccd8ca4e0f1c9f4714ef1793;
   0x91b0a5a1f51f03e8ec80a00f2844b3f9587d96381a19cd775e164a023e1aae05;
   0x13d823739b423aaa21299c2626e57b65b9a6773131f5fd5bf83a9a79d227904e;
   0x64c333979a95976bf94477e5b9993aba3c908bf890e99ba7d1c5df22277b799f;
   0xc7797bd197c3bc63d11f409ff57ec18b6f5fa3265894fdd080529d31cc1b00a2;
   0x839748f8527b78e24ad8db01202a6d19c1a4b279248c54c1e916980aaf900ac3;
   0xc4b79da6c325c44ab4c34b7abb7df48f5c72c4a170360dab43ef080f67230536;
   0xbfb39e358d3e3ec54832ee23237c8bdc278199a081bec0b446e2b600357f9c56;
   0xd345dc0027f54d06369d18ce839582037bcc4de938fcaa71371467abb7e945a5;
   0x97891548790cee35b306f71ad7c90e3ddc067dcf45e17124943f91d006de2063;
   0xf4ed645d32a5224da76f3d586cb17df797e6923813bdc84648adb4b92761703a;
   0x304f119f2dfa2851e4aafd8c0884862afb77222f376dd500cead56f2235826a3;
   0x61e193ae6f6600fa9799f7551ce789ae4ce483682ad375873d5b8d16d85db338;
   0x7791f09c4ca7d59f55835b3e1bb3e29eb94f6b2862eaae4bacbe859e323172ef;
   0xeea8066d4256a0c85096aeb64406c494716fc7c7aa96e5271c6adb662e4c3fd2;
   0xe292287aa4833432d0a2fad26673b11e533ffa03752365155d2366f29d3790b3;
   0xb6293eff4bc30337c211b6094bde104dc078e4a1eb985d7de25bcfca6cd7d8bf;
   0xb860663c21d8516b796d39b39dc70af4fe949afd48ef38131c0a457be1626413;
   0x4d8855a62bacbaa67ebc25e3a67072d2bf614624cf25ffa22b4ac6d64f74e9fc;
   0xa0f89fb0ff469b5955a693873fb7c711115b4b03e0dc8fe05a554d5b800b224a;
   0xe521ba4be887fdbaf978a64c4fb85b1b9f834ea70a4eb82ee6325bd6f9e35e90;
   0x5d0b6c60d166f26f9d97615d55f3217e378685c07f64210e65e837c0bdbaaa3e;
   0x72aa4a50414a5faa7e26958fb9216b1196ff04240ceb680f0a20442907ca9c1b;
   0x25b66a5cfc1d486085906fd071331fd48b97e2fb67cc0eb6d1c8356dc7584c2;
   0x63dc7780565c42803af4c49a84005620b7fc31057e4488f383bd6499bd3bfadf;
   0xbdb3db47b5b6aebe007b80b34c80da42388f63b238e4e856333a2856b37468;
   0x4579755d10f7c55690461db968ebdd90e4b6b609e8767bb51f2dedbae1a5ebc4;
   0x527d0bc856eb799ecb55cde566e11024b5693578b23d522a72a2e0dff8a6413;
   0x82632a594fc20bc2a237a43c79364b57a7456d96670c2a6372998eba8087ddea;
   0xf58a91de2a58da72e196609d187214ccd27b931c4a4259933070bb0c1efefa85;
   0x77ad071973e16d6d513d8a6bdafa572a5fe0727908e482617f0030e91b6db4ad;
   0xcd679d9f3fc4af91e4ef8380d279c6d5ce187ae61c83c89cb9045fb3ba40784;
   0xcdba2ac85a879bf8eb9e45bb6a6162e3a7b3731124992be4b10b0d3724b8bbf3;
   0xffd35018fc012692274d306206fb3122476cf0e64954241a50dda631d889ce8d;
   0x78f09b7aed430a3b8cdac62383e39d394d09d19fa4744e663059edd77aae4040;
   0x2b8f93143e35456eee7b0a93f51b524fee4db5e302ba4e42a1a7b3901cc37fe0;
   0x2deada5c1e74464cab8082bf29c634d8e9b368289a961c2ef2f6839fb2d31e0a;
   0xfae393db740dcc42aa75f021d15f27b4323944dbb17d44823c00c75c2267f83b;
   0x3ef74d19b10176d0018f08127c24525916d5e41112cec288f754820ba02ab88d;
   0x1244ac860386b812256c6236536c6a290341e60a48a34009b187ad25c4f1c322;
   0xcb6c84b3c9acf542a6629a4e82233bb76adef84fd80bcc647fef73a655ecb4bd;
   0x2e74a3ce2cc110e88e22641c7d3346d61bc06b2cb4519a4e58d8350c7b5bb3dc;
   0xe887272be342fccaa17e9a84d2e09702790a137e14bfa851676b4420cbbeb8ef;
   0xb863d110a420704c9a793d8f825c7448b73552d91df5efdca84edf5b50ae7a44;
   0xa7091d425ce1bcaa454ff89b23f1eb59fd4ac6dcf2ddf57e78633e02ccf707ef;
   0xb1c20a6de271a7366ee6d737454bf1735d420cc02844749e1fa3a4000af50e18;
   0x6b948575850c1b22c5471e4f90ae68a9439219e63b2c7f5b372f6dc7852f1e0a;
   0xb5a44079be7938669b7b38245cbb219f6f968469710dbcaecd29106474ead633;
   0x3ee376558296e48ee56fe4a198ebe841101fed23daf7e98b5a64e20f0c6159c2;
   0x62b9d7ccf126f5d0501b99b9d014603b046a47d6e86ddb65484bf5d3c0f8bf9e].
